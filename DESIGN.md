# Formal model of quantfinlib in Rocq

Subject: `quantfinlib/quantfinlib`, pinned commit, source in `/repo` (read as text, never run).
Prover: Coq 8.16.1.  Everything lives in `rocq/theories`, logical name `Verif`.

## 1. Layout

For each area `X` of the code there are up to four files:

* `X_Model.v`  definitions only; every definition cites the file and lines it models and states its simplifications;
* `X_Spec.v`   (or a `Spec` section at the top of the property file) the small independent vocabulary used by the theorem statements;
* `X_Proofs.v` lemmas;
* `X_Props.v`  the property theorems (`Cnn_...`), each with a concrete `Example` that meets its hypotheses, and `Print Assumptions`.

`Base.v` holds exceptions-as-values and list facts, `Num.v` the number type used for data.

## 2. Modelling choices

* **Exceptions** are values: `res A = Ok a | Raise e` with the Python exception class `e`.  Generators are modelled as
  the list of yielded values plus the way the generator ended (stopped, raised), or as a step function with explicit state.
* **Indices, groups, times** are `Z`/`nat`.  A timestamp is an integer number of nanoseconds, a `Timedelta` likewise.
* **Floating point numbers** are idealised: `num = Fin r | NaN | PInf | NInf` with `r : R` (Coq's standard library reals),
  IEEE-754 rules for NaN, infinities and division by zero, but no rounding, no overflow, no signed zero.
  Everything proved about numeric code is a statement about this idealisation.  Pure parameters that the code only
  combines with `+ - * / sqrt exp log` on their domain are plain `R`.
* **Libraries** (numpy, pandas, scipy, sklearn) are modelled by the documented contract of each call used
  (`np.array_split`, `np.setdiff1d`, `np.searchsorted`, `Series.rolling(w).mean()`, `Series.ewm(span).mean()` ...),
  written out as Gallina functions.  Calls without a usable contract (random generator, Cholesky, eigen decomposition,
  `scipy.cluster.linkage` before C106, `t.cdf`, `pd.infer_freq`) are function arguments of the model, so theorems hold for every
  behaviour of them; facts needed about them (`L L^T = cor`) are explicit hypotheses of the theorem.

## 3. Plan per property

| id | modelled | proof method |
|----|----------|--------------|
| C01-C04 | `TimeAwareKFold.split` with array_split, boundary moves, purge, embargo | loop invariant on fold bounds (adjacency, group alignment), exact characterisation |
| C05 | same | refutation by witness, plus general failure lemma |
| C06 | same, groups = arange | specialisation of the invariant |
| C07, C08, C16 | `_purge`, `_embargo`, validators | case analysis |
| C09-C11 | `WalkForward.split` as a step machine | closed form of the machine on even grids by induction over steps |
| C12, C15, C17 | same | witness / general lemma |
| C13, C14 | same, with the splitter object's mutable fields | invariant over runs; termination measure |
| C18-C24, C33, C35 | path sampling on noise arrays | induction over steps, list algebra |
| C25-C30 | fit / nll / aic / bic | real algebra |
| C31, C32 | argument defaults, output formatting, fit state | case analysis over state |
| C34 | triangular packing | induction |
| C36, C37 | frequency detection on lists of ns stamps with a proleptic Gregorian calendar | arithmetic, finite sweep over the 400 year cycle |
| C38-C40 | correlation distances | real analysis (Cauchy-Schwarz, Gram determinant, acos) |
| C41-C45 | histogram2d counts, entropies | log-sum inequality by induction |
| C46 | divergences (matrix algebra) | Hadamard/Cholesky argument |
| C47-C52 | `math/cov.py` on lists of rows | real algebra |
| C53 | every feature function | causality calculus: each primitive is causal, composition is causal |
| C54 | decorator | case analysis |
| C55-C60 | indicators | induction, convexity |
| C61-C67 | microstructure | real inequalities |
| C68 | cusum | induction, arg-max |
| C69-C71 | clustering | invariance lemmas, search lemmas |
| C72-C74 | validators with Python's argument matching, logger histories, data loaders | case analysis, invariant over call sequences |
| C75 | `SimBase.fit` as a state change that may fail half way | case analysis over the state |
| C76, C77 | `QuasiRandom` fit and horizon dependence | refutation by witness, exact behaviour |
| C78 | frequency detection on date ranges (daily, weekly, business, month, quarter, year) | calendar arithmetic, induction over the range |
| C79 | correlation distance matrix (pearson, pandas rules for missing data) | real algebra, clip lemmas |
| C80 | histogram entropies and bins | counting by induction |
| C81 | random covariance / correlation matrices | quadratic forms |
| C82 | exponentially weighted std | convexity, induction over the recursion |
| C83 | values of the volatility estimators | rolling window contract |
| C84 | silhouette t-statistic (sklearn contract) | sums over clusters, relabelling |
| C85 | pydantic annotations for arrays, frames and series | induction over the declaration |
| C86 | fold bounds before and after _modify_fold_bounds | induction over the nominal folds: each modified start is the first group boundary at or after the nominal start |
| C87 | the whole run of TimeAwareKFold.split | C86 plus exact outcome of the loop body (purge and embargo, C07), induction over the folds |
| C88 | the whole run for Series groups | the Series and DatetimeIndex runs compared step by step |
| C89 | WalkForward.split on arbitrary sorted groups | loop invariant last training group <= first test group <= last test group, all of them present; witnesses with gaps refute the stronger readings |
| C90 | WalkForward.split on groups closed under the test window | loop state as a closed form in the window number, induction on the remaining windows |
| C91 | band classes over the rolling and exponential operators of Feat_Ops | row-wise case analysis on missing values; windows and weighted sums commute with a change of unit |
| C92 | rolling_mom, ewm_mom | position-wise reading of diff; telescoping; the exponential recursion in closed form |
| C93 | get_corr_distance_matrix with its transformer argument and pandas' pairwise deletion | reduction to real lists of complete pairs; a 6 x 3 witness against the triangle inequality |
| C94 | get_corr_distance_matrix with DataFrame.corr(method="spearman") as average ranks + Pearson | rank sums as sums of comparisons; equality case of Cauchy-Schwarz for "ordered alike" |
| C95 | np.linalg.cholesky as an algorithm (Chol_Model.v), bm_new, ou_new, path_sample | the algorithm finds the factor iff positive definite (uniqueness of the factor, induction over columns); second moments of L z |
| C96 | _nll with a correlation; scipy multivariate_normal by its density | quadratic form and determinant through the triangular factor; a reference implementation shows the contract can be met |
| C97 | ou path_sample with unit impulses | path in closed form by induction; equality case of Cauchy-Schwarz |
| C98 | fit_changes with np.corrcoef and Cholesky | positive definite iff no constant combination; homogeneous systems with more unknowns than equations |
| C99 | features on Series with their own dates (Lab_Model.v): reindexing to the sorted union before each binary operation | cutting at t commutes with every operation (prefix lemmas of C53, unique sorted union); strictness in NaN for gaps |
| C100 | the functions that promise a range, a sign or a start value, with every operation rounded (Rnd_Model.v, parametrised by the rounding); pandas' one-pass rolling mean and ewm loops | monotone rounding fixes 0, 1, 2, 100; sign invariants of the running sums; binary64 through Flocq's FLT format; pigeonhole of logarithms |
| C101 | np.corrcoef and pandas' one-pass Welford correlation in rounded arithmetic | symbolic execution at 0, 2; sqrt(round(s*s)) rounds to s; parallel runs of the recurrence on x and -x |
| C102 | log_det_divergence, von_neuman_divergence with correct inverse and logarithm | determinants multiply (alternating forms, Det.v); traces are cyclic; scalar witnesses |
| C103 | OrnsteinUhlenbeck.fit on one series, any finite values | decomposition of the squared error around the best line; uniqueness by convexity; exact lines as special cases |
| C104 | OrnsteinUhlenbeck.fit on several series with the Cholesky model of C95 | residual columns as in C98; NaN pivots; chord slopes of ln are strictly decreasing |
| C105 | fit followed by nll for BM, GBM, OU | the likelihood is a sum of two minima, ln x < x - 1 |
| C106 | scipy's linkage (squareform checks, closest pair, Lance-Williams updates, any tie and orientation) and cut_tree (to_tree, ordering of the nodes, relabelling loop) | invariant of the relabelling loop over the ordered nodes; monotone heights |
| C107 | as C106 | invariant of the run: every tree is well formed and its distances are those of the definition; separation invariant for nodes below a height |
| C108 | optimize_n_clusters on top of C106 | C70 and C84 with the number of labels of C106 |
| C109 | HC.__init__ on tables, with C106/C107 | C93, C94 and C44/C45 give the matrix of distances, C106 and C107 the clusters |
| C110 | mp_pdf | antiderivatives by arcsine on the open interval, limits at its ends; integrals as in Coquelicot (`is_RInt_gen`) |
| C111 | fit, nll, aic, bic of the three models | C105 in both units; rescaling maps parameters to parameters with a constant change of nll |
| C112 | nll and path_sample of the three models | the Gaussian integral (`Gauss.v`, with Coquelicot); antiderivatives of the densities |
| C113 | scipy's linkage, HC objects | runs of the clustering on transformed or reordered distances correspond step by step (`Link_Same.v`) |
| C114 | fit, nll, aic, bic, path_sample of the three models | evaluation on arrays with one or two rows, any number of columns |
| C115 | fit, preprocess, path_sample, format_ans, get_column_names | the state a fit leaves, then C32's output formats |
| C116 | the eigenvalue functions of `math/cov.py` on arrays of integers, where assignments drop fractions | a bound on the density, then the scan of the grid |
| C117 | nll, aic and bic of models with a volatility that is not positive; the three scores as functions of one likelihood | one NaN term makes the sum NaN; fits of straight series by the variance-is-zero criterion |
| C118 | `sim/_ou.py` `_fit_np` with the rank decision of `np.linalg.lstsq(rcond=None)` (exact singular values of an n x 2 matrix) | closed form of the eigenvalues of a 2 x 2 matrix; bounds on weighted means |
| C119 | `train_test_split` with label lookups in place of positions (`SerIx_Model.v`): `TimeAwareKFold.split` to its end, `WalkForward.split` up to its first loop test | labels are a partial injective map; exact membership of each training set; witness for the leak |
| C120 | `train_test_split` with numpy's wrapping integer arithmetic (`Word_Model.v`): `BaseCV.split`, `_purge`, `_embargo`, `TimeAwareKFold.split` to its end | modular arithmetic; equality with the unbounded model in range; exact effect out of range; witnesses for any width |
| C121 | the windowed features of `feature/indicators` and `feature/micro_structure` on slices of their input (`Buf_Proofs.v`) | a calculus of tails: an operation applied to a series without its first rows agrees from some offset on; offsets add up along the formula; witnesses for minimality and for the functions with unbounded memory |
| C122 | sequences of the calls fit, nll, aic, bic and path_sample on one object, raising or not (`Hist_Model.v`) | induction over the sequence; case analysis of what each failing fit has already assigned; a concrete three-fit history for the mixture |
| C123 | `WalkForward.split` with numpy's wrapping integer arithmetic (`WordWF_Model.v`) | equality with the unbounded model in range by induction over the loop; the first pair of a window that wraps; a cycle of loop states of period two, found for every width |
| C124 | the generators of one `WalkForward` object as state machines, advanced and closed in any order (`Gen_Model.v`) | independence by simulation of one generator alone; refinement of the run of C09 to C14; an invariant over the log for the counter |
| C125 | `get_project_root` on POSIX paths: parsing of path strings, parents, joining (`Path_Model.v`) | structural induction over strings and lists of names; a witness that leaves the directory by `..` |
| C126 | the import statements and `__all__` of the ten `__init__.py` files, `import *` and `from ... import name` (`Star_Model.v`) | induction over the bindings of a package; the public names one by one |
| C127 | which files import which, and Python's loading of modules with packages first (`Load_Model.v`) | induction on a rank that every import lowers, and on the depth of packages; invariant on finished modules |

Properties that turn out to be false of the code are stated as found: the theorem named `..._refuted` gives a witness and a
companion theorem proves the exact or restricted behaviour.

## 4. Trusted base

* **Coq 8.16.1 kernel** (`coqc`; no plugin, no `native_compute`, no disabled check, no `Admitted`).
* **Axioms**: only the standard library's.  Over all property theorems `Print Assumptions` lists a subset of
  - A1 `ClassicalDedekindReals.sig_forall_dec` (decidability of a universally quantified decidable property of `nat`; under `Reals`),
  - A2 `ClassicalDedekindReals.sig_not_dec` (decidability of a double negation; under `Reals`),
  - A3 `FunctionalExtensionality.functional_extensionality_dep` (under `Reals`),
  - A4 `Classical_Prop.classic` (excluded middle; through lemmas of `Reals` such as the intermediate value theorem, `Ranalysis`).

  `Cov_MP_Props.v` (C110), `Gauss.v` and `Law_Props.v` (C112) use derivatives and integrals of Coquelicot, which adds no axiom of its own.
  (A scan of all loaded libraries also finds the sealed fields of the standard library's `Rdefinitions` and `ssr.ssrunder`; no theorem here depends on one.)  Section 6 gives the list for each theorem.  No axiom, `Parameter` or section-less `Variable` is declared here.
* **Faithfulness of the model**: the hand-written definitions against the cited Python lines, and the contracts below against
  the libraries.  Nothing of `/repo` is executed.

## 5. What is modelled and what is not

Modelled, function by function (the comment on each definition gives file, lines and simplifications):

| code | model |
|------|-------|
| `train_test_split/kfoldpe.py`, `_base.py`, `walk_forward.py` | `Split_Model.v`; `SerIx_Model.v` (groups as a Series with any integer labels); `Word_Model.v`, `WordWF_Model.v` (fixed-width integer groups); `Gen_Model.v` (several generators of one `WalkForward`) |
| `sim/_base.py`, `_bm.py`, `_gbm.py`, `_ou.py`, `_quasi_random.py` | `Sim_Model.v`; `Hist_Model.v` (sequences of calls on one object), `Chol_Model.v` (numpy's Cholesky factorisation), `Cut_Model.v` (rank decision of the least squares solver) |
| `_datatypes/timeseries.py` | `Freq_Model.v` |
| `distance/correlation.py`, `distance_matrix.py`, `information.py`, `matrix_divergence.py` | `Dist_Model.v`, `Info_Model.v`, `Div_Model.v` |
| `math/cov.py` | `Cov_Model.v`, `Cov_Int_Model.v` (integer arrays) |
| `feature/indicators/*`, `feature/micro_structure/*`, `feature/structural_breaks/cusumtest.py` | `Feat_Ops.v` (pandas contracts), `Feat_Model.v`; `Lab_Model.v` (the same functions on Series whose dates differ) |
| the same parts of `distance/correlation.py`, `distance_matrix.py`, `feature/*`, `sim/_bm.py`, `_gbm.py`, `_ou.py` in rounded arithmetic | `Rnd_Model.v` |
| `clustering/metrics.py`, `hierarchical.py` | `Clust_Model.v`, `Link_Model.v` (scipy) |
| `util/_validate.py`, `_logging.py`, `_custom_types.py`, `datasets/_dataloader.py`, `train_test_split/_dtypes.py` | `Util_Model.v`, `Types_Model.v` (the remaining declared types) |
| `util/_fs_utils.py` | `Path_Model.v` |
| the `__init__.py` files, imports between modules | `Star_Model.v`, `Load_Model.v` |

Not modelled: `__repr__`, doc strings, warnings and the text of messages; JSON schemas of `_custom_types.py`; pydantic's union
handling; Windows paths in `util/_fs_utils.py`; the contents of the bundled data files; `combinatorial_cv.py` (empty);
floating point rounding outside C100 and C101, overflow and signed zeros everywhere, fused or reordered operations (vectorised sums); running time and memory; concurrency (the library has
none); mutation of a caller's pandas object through views other than the ones named in a theorem.

Library contracts written as Gallina functions (trusted to match the libraries): `np.array_split`, `setdiff1d`, `searchsorted`,
`unique`, `cumsum`, `tile`, `std`, `cov`, `corrcoef`, `clip`, `isclose`, `histogram`, `histogram2d`, `triu`, `fill_diagonal`,
`argmax`, `max`, `linalg.cholesky` (in C95-C98 and C104), `slogdet` (through the determinant), `can_cast`; pandas `shift`, `diff`, `pct_change`, `rolling(w)` mean, std, var,
max, min, sum, cov (full windows, NaN otherwise), `ewm(...)` mean and std with `adjust=True`, `ignore_na=False`,
alignment of two Series, of the columns of a DataFrame and of `pd.concat(axis=1)` (equal indexes kept, otherwise the sorted union; for strictly
increasing DatetimeIndexes, in C99), `DataFrame.corr` (pearson; spearman in C94 only), `DataFrame.rename`, `DatetimeIndex` date fields; `scipy.stats.entropy`;
`sklearn.metrics.silhouette_samples`; in C106-C109 `scipy` `squareform`, `linkage` (as a relation: any closest pair, either order) and `cut_tree`; `inspect.Signature.bind_partial`; `logging.Logger` levels and handlers; Python `round`, slices
and `str.split`.  In C100 and C101 also the loops of pandas' `roll_mean` (running compensated sum), `ewm` and `nancorr` (Welford), and the order of
operations of `np.corrcoef`; `x ** 0.5` and `np.sqrt` are taken to be the rounded square root.

External, so theorems hold for every behaviour of them (facts needed are hypotheses of the theorem): random generators,
`np.linalg.eigh`, `eigvals`, `inv`, `svd`, `cholesky` (except in C95-C98 and C104), `multivariate_normal` (its density and its
check of the dimensions are hypotheses of C96), `scipy.linalg.logm`, `scipy.cluster.hierarchy.linkage` and `cut_tree` (except in C106-C109),
`scipy.stats.t.cdf`, `pd.infer_freq`, `DataFrame.corr(method="spearman")` (except in C94), gzip and `read_csv`, the file system, a caller's
indicator function and distance transformer.

## 6. Print Assumptions per theorem

**A1** (5 theorems): `C34_forms`, `C34_cor_from_upper`, `C34_other_lengths_rejected`, `C48_block_diagonal`, `C51_cor_to_eig`

**Closed under the global context** (129 theorems): `C01_kfold_tests_partition`, `C01_look_forward_drops_first`, `C02_kfold_no_group_leak`, `C03_kfold_train_exact`, `C04_kfold_number_of_splits`, `C05_group_filling_a_fold_fails`, `C05_kfold_enough_groups_suffice_refuted`, `C05_kfold_nonempty_tests_refuted`, `C05_numpy_error_class`, `C05_timestamps_empty_test`, `C06_kfold_default_groups`, `C06_validated_settings_suffice_refuted`, `C07_purge_exact`, `C07_embargo_exact`, `C07_bad_input_rejected`, `C08_kfold_constructor`, `C08_kfold_constructor_errors`, `C08_walk_forward_constructor`, `C09_walk_forward_exact_windows`, `C10_walk_forward_train_before_test`, `C11_walk_forward_tests_cover`, `C12_walk_forward_disjoint_refuted`, `C12_integer_gap_refuted`, `C12_first_pair_overlaps_iff`, `C13_get_n_splits_accumulates`, `C13_repeated_runs`, `C13_get_n_splits_is_last_run_refuted`, `C14_walk_forward_terminates`, `C14_default_test_window_diverges`, `C15_default_train_window_leaks`, `C16_bad_arguments_yield_nothing`, `C17_walk_forward_series_groups_fail`, `C18_default_names_distinct`, `C36_dates`, `C36_calendar_sound`, `C36_step_sound`, `C36_steps_of_index`, `C36_too_short`, `C37_three_stamps_daily`, `C54_numpy_pandas`, `C54_mixtures`, `C72_unknown_keyword`, `C72_one_dimensional`, `C72_two_dimensional`, `C72_unmatched`, `C72_both`, `C73_user_removes`, `C73_user_adds`, `C73_user_level`, `C73_state`, `C73_messages_once`, `C73_unwritable_file`, `C73_import_of_distance`, `C73_import_of_distance_refuted`, `C73_imported_before`, `C74_treasury`, `C74_one_name`, `C74_no_merge`, `C74_files`, `C78_daily_range`, `C78_weekly_range`, `C78_business_range`, `C78_docstring_example_refuted`, `C78_month_end_range`, `C78_month_start_range`, `C78_quarter_and_year_ranges`, `C78_last_day_ticks`, `C83_yang_zhang_window_one`, `C85_declared_vectors`, `C85_declared_tables`, `C85_declared_series`, `C85_group_datetime_index_refuted`, `C85_array`, `C85_array_unreadable`, `C85_frame`, `C85_frame_wildcard_refuted`, `C85_frame_dtype_ignored`, `C85_frame_other_shapes`, `C85_series`, `C86_fold_assignment`, `C87_settings_refused`, `C87_outcome`, `C88_integer_series`, `C88_timestamp_series`, `C89_every_pair`, `C89_windows_advance`, `C89_too_short`, `C89_first_pair`, `C89_tested_once_refuted`, `C89_every_later_sample_tested_refuted`, `C89_completes_after_first_pair_refuted`, `C90_windows_repeat`, `C90_no_leak`, `C90_tested_once`, `C119_default`, `C119_pairs`, `C119_leak_refuted`, `C119_tail`, `C119_walk_forward`, `C120_in_range`, `C120_unsigned_order`, `C120_unsorted_refuted`, `C120_purge`, `C120_embargo`, `C120_embargo_refuted`, `C123_in_range`, `C123_order`, `C123_overflow`, `C123_long_window`, `C123_never_ends_refuted`, `C124_independent`, `C124_one_run`, `C124_count`, `C125_below`, `C125_steps`, `C125_absolute`, `C125_redundant`, `C125_inside`, `C125_inside_refuted`, `C125_datasets`, `C126_by_name`, `C126_star_refuted`, `C126_star`, `C126_star_shadows_refuted`, `C127_every_order`, `C127_logger`, `C127_once`, `C126_module`, `C126_unknown`

**A1 A3** (67 theorems): `C31_unusable`, `C31_unfitted_defaults`, `C31_other_strings`, `C31_fitted_x0`, `C31_fitted_dt`, `C31_dt_positive`, `C31_bad_dt_assertion`, `C32_names_without_index`, `C32_include_x0`, `C36_durations`, `C36_codes`, `C46_von_neumann_self`, `C48_valid_iff`, `C51_eig_to_cor`, `C51_round_trip`, `C51_complete`, `C53_rolling_mom_refuted`, `C56_weighted_mean`, `C56_span_below_one`, `C56_bounds`, `C56_affine`, `C57_donchian`, `C58_range`, `C58_negation`, `C58_invariance`, `C58_value`, `C59_difference`, `C59_equal_spans`, `C59_antisymmetric`, `C59_affine`, `C59_signal_is_histogram`, `C59_signal_line_refuted`, `C60_true_range`, `C60_first_bar`, `C60_average`, `C60_nonnegative`, `C60_bad_windows`, `C65_bulk_volume`, `C65_bulk_value`, `C65_vpin`, `C66_kyle`, `C66_amihud`, `C75_failed_fit_half_changes`, `C76_quasi_fit_fails`, `C83_close_close`, `C84_range`, `C92_rolling`, `C92_mean_of_changes`, `C92_zero_and_negative`, `C92_ewm`, `C92_bad_span`, `C92_straight_line`, `C99_written_out_refuted`, `C99_buy_volume`, `C99_buy_volume_refuted`, `C100_rsi`, `C100_ewm_rsi`, `C100_bands`, `C100_ranges`, `C102_von_neumann_rotation`, `C121_atr`, `C121_keltner`, `C121_macd`, `C121_ewm_rsi_refuted`, `C121_ewm_mom_refuted`, `C121_amihud_refuted`, `C121_ewm`

**A1 A2 A3** (102 theorems): `C18_bm_layout`, `C18_ou_layout`, `C19_bm_starts_at_x0`, `C19_ou_starts_at_x0`, `C20_bm_increments`, `C22_ou_two_steps`, `C22_ou_zero_mrr_is_nan`, `C23_bm_prefix`, `C23_ou_prefix`, `C24_bm_fit_of_own_path`, `C24_bm_fit_recovers_parameters`, `C28_ou_multivariate_paths_rejected`, `C32_columns_argument_fails`, `C33_increment_covariance`, `C35_quasi_path`, `C35_constant_signal_nan`, `C35_short_paths_nan`, `C35_shared_vol_rejected`, `C38_by_name`, `C38_accepts_exactly`, `C38_matrix`, `C38_scalar`, `C38_monotone`, `C38_frames_not_checked`, `C38_corr_to_dist`, `C39_by_name`, `C39_triangle`, `C40_by_name`, `C40_affine_invariance`, `C40_angular_reflection`, `C40_symmetric_and_zero`, `C40_degenerate`, `C47_entries_bounded`, `C47_round_trip`, `C47_covariance`, `C47_local`, `C47_rejects`, `C50_support`, `C50_density`, `C50_scaling`, `C53_indicators`, `C53_bands`, `C55_rolling`, `C55_bad_windows`, `C56_constant`, `C57_ordering`, `C57_percent_b_ends`, `C59_constant`, `C75_failed_bm_fit_mixes`, `C76_quasi_fit_moves_start`, `C77_quasi_prefix_refuted`, `C79_matrix_of_pair_distances`, `C79_constant_column`, `C81_random_cov`, `C81_random_cor`, `C82_weighted_std`, `C84_value`, `C84_partition_only`, `C84_scale`, `C84_errors`, `C91_what_the_bands_show`, `C91_bollinger`, `C91_bad_windows`, `C91_moves_with_the_prices`, `C93_transformer`, `C93_identity_transformer`, `C93_rejections`, `C95_wrong_size_ou`, `C95_accepted_correlations`, `C95_not_square`, `C95_missing_correlation`, `C95_bm_covariance`, `C100_distance`, `C100_distance_order`, `C100_distance_matrix`, `C100_spread`, `C100_paths`, `C106_clusters`, `C106_linkage_exists`, `C106_centroid_refuted`, `C107_nested_with_groups`, `C107_recovers`, `C107_duplicates`, `C107_rows`, `C107_clusters`, `C107_single`, `C107_complete`, `C109_signs`, `C113_average_ranks_refuted`, `C113_scale`, `C113_shift`, `C113_ranks`, `C113_order`, `C113_components`, `C116_density`, `C118_line`, `C121_ewm_mom`, `C121_indicators`, `C121_ewm_refuted`, `C121_smallest`, `C121_rsi_short_refuted`, `C121_macd_signal`

**A1 A2 A3 A4** (219 theorems): `C18_gbm_layout`, `C19_gbm_starts_at_positive_x0`, `C19_x0_length_rejected`, `C21_gbm_paths`, `C22_ou_exact_step`, `C23_gbm_prefix`, `C25_gbm_fit_of_own_path`, `C25_gbm_fit_inverts_refuted`, `C26_bm_nll`, `C26_ou_nll`, `C26_gbm_nll`, `C26_gbm_nll_agrees_iff`, `C27_ou_fit_least_squares`, `C27_ou_fit_noise_free`, `C27_ou_fit_last_column`, `C27_ou_path_after_fit_fails`, `C27_ou_default_path_after_fit_fails`, `C29_scoring_replaces_fit`, `C29_scoring_forgets`, `C30_bm_aic_bic`, `C30_ou_aic_bic`, `C30_aic_textbook_iff`, `C31_class_defaults`, `C32_container`, `C41_distance`, `C41_triangle`, `C41_normalised`, `C41_normalised_triangle`, `C42_bounds`, `C42_normalised`, `C43_formula`, `C43_self_zero`, `C43_blind`, `C43_nonneg_when_covered`, `C43_nonneg_refuted`, `C44_positive`, `C44_default_bins`, `C44_defaults_finite`, `C45_matrix`, `C45_rejects`, `C45_var_info_metric`, `C46_log_det_nonneg`, `C46_log_det_self`, `C46_nonneg_needs_symmetry`, `C46_von_neumann_nonneg`, `C46_rejects`, `C49_given_k`, `C49_overwrites`, `C49_overwrites_sum`, `C49_automatic_k`, `C50_fit_empty`, `C50_fit`, `C50_fit_total`, `C52_variances`, `C52_valid`, `C52_rejects`, `C53_micro`, `C53_cusum`, `C61_all_inputs`, `C61_rogers_satchell`, `C61_garman_klass`, `C61_yang_zhang`, `C61_becker_parkinson`, `C62_volatility`, `C62_spread`, `C62_impact`, `C63_range`, `C63_value`, `C63_published_refuted`, `C63_wrong_direction`, `C64_value`, `C64_sign`, `C64_nonnegative`, `C64_no_movement`, `C66_hasbrouck`, `C67_roll_measure`, `C67_roll_impact`, `C68_value`, `C68_no_movement`, `C68_shape`, `C68_bound`, `C68_no_early_break`, `C68_unit`, `C68_first_return`, `C69_value`, `C69_partition_only`, `C69_global_state`, `C69_overwrites_state`, `C69_scale`, `C69_scale_diagonal_refuted`, `C69_ratio`, `C69_published_equal_sizes`, `C69_published_refuted`, `C69_errors`, `C70_gap`, `C70_gap_range`, `C70_gap_raises`, `C70_published_selects_no_more`, `C70_silhouette`, `C70_silhouette_nan_wins`, `C70_errors`, `C71_source`, `C71_optimum_state_free`, `C71_linkage_fixed`, `C71_history_free`, `C71_follows_attributes_refuted`, `C80_entropies_are_shannon`, `C80_measures`, `C80_accepts_exactly`, `C80_unit_free`, `C80_order_free`, `C83_range_estimators`, `C83_yang_zhang`, `C83_yang_zhang_published_refuted`, `C83_becker_parkinson`, `C83_variance_units`, `C93_missing_observations`, `C93_triangle_with_gaps_refuted`, `C94_rank_correlation`, `C94_order_only`, `C94_extremes`, `C95_gbm_covariance`, `C95_ou_covariance`, `C95_lower_triangle`, `C95_wrong_size`, `C95_two_variates`, `C96_bm_nll`, `C96_gbm_nll`, `C96_ou_nll`, `C96_bm_own_path`, `C96_shared_volatility`, `C96_fitted_ou`, `C97_affine`, `C97_covariance`, `C97_step_size`, `C98_bm_fit`, `C98_gbm_fit`, `C98_too_few_rows`, `C98_fit_then_simulate`, `C99_same_dates`, `C99_no_look_ahead`, `C99_dates`, `C99_written_out`, `C99_gaps`, `C100_binary64`, `C100_exact_results`, `C100_gbm_start_refuted`, `C100_gbm`, `C100_gbm_positive_refuted`, `C101_corrcoef_refused`, `C101_self_correlation`, `C101_distance_matrix`, `C102_log_det_value`, `C102_log_det_congruence`, `C102_log_det_precision`, `C102_diagonal`, `C102_von_neumann_scale`, `C102_not_metrics_refuted`, `C103_every_series`, `C103_signs`, `C103_geometric`, `C103_straight_line`, `C103_constant_series`, `C103_units`, `C104_outcome`, `C104_too_few_rows`, `C104_exact_series`, `C104_volatility`, `C105_bm`, `C105_gbm`, `C105_ou`, `C105_gap`, `C106_refused`, `C108_silhouette`, `C108_gap`, `C109_clusters`, `C109_unrelated`, `C109_units`, `C109_order`, `C109_var_info`, `C109_groups`, `C110_moments`, `C111_bm_units`, `C111_gbm_units`, `C111_ou_units`, `C111_choice_depends_on_units`, `C112_bm`, `C112_ou`, `C112_gbm`, `C112_steps`, `C113_abs_squared`, `C114_one_observation`, `C114_one_observation_ou`, `C114_nll`, `C114_scores`, `C114_two_observations`, `C115_paths_look_like_data`, `C115_no_frequency`, `C116_fit`, `C116_denoise`, `C116_given_k`, `C117_nan`, `C117_straight_bm`, `C117_straight_gbm`, `C117_together`, `C117_ou`, `C118_agrees`, `C118_flat`, `C118_level_refuted`, `C121_micro`, `C121_amihud`, `C122_only_fits_count`, `C122_sampling_silent`, `C122_fit_outcome`, `C122_fresh_start`, `C122_bm_parts`, `C122_ou_parts`, `C122_factor_matches`, `C122_mixture_refuted`

