{"id": "C01", "title": "K-fold test sets partition the samples", "statement": "When TimeAwareKFold(look_forward=False).split runs to completion it yields n_folds test sets whose concatenation, in order, is exactly 0,1,...,n_samples-1: every sample is tested exactly once, each test set is a contiguous block.  With look_forward=True the yielded test sets are the same ones with the first dropped.  For numpy integer groups no yielded test set is empty.", "quantifier": "all sample counts, fold counts, purge/embargo sizes, look_forward flags and all sorted group vectors", "why_tests_cant": "the interaction of array_split remainders with group-aligned boundary moves depends on every group layout; tests sample a few random layouts", "anchors": ["quantfinlib/train_test_split/kfoldpe.py:TimeAwareKFold.split", "quantfinlib/train_test_split/kfoldpe.py:_modify_fold_bounds"]}
{"id": "C02", "title": "K-fold never splits a group between train and test", "statement": "For every yielded (train, test) pair no training sample has the same group value as a test sample, and train and test indices are disjoint.", "quantifier": "all sorted group vectors and all settings for which a split is yielded", "why_tests_cant": "leakage is a universally quantified absence statement over all group layouts", "anchors": ["quantfinlib/train_test_split/kfoldpe.py:TimeAwareKFold.split", "quantfinlib/train_test_split/kfoldpe.py:_modify_fold_bounds", "quantfinlib/train_test_split/kfoldpe.py:_get_train_index_per_split"]}
{"id": "C03", "title": "K-fold training set is exactly the complement minus purge and embargo zones", "statement": "For every yielded pair with a non-empty test set, a sample i is in train if and only if its group is more than n_embargo below every test group or more than n_purge above every test group (first case only if look_forward); train is sorted without duplicates and never empty.", "quantifier": "all samples, all sorted group vectors (integers, or timestamps with freq units), all n_purge and n_embargo", "why_tests_cant": "exactness (nothing kept that leaks, nothing dropped needlessly) quantifies over all samples and layouts", "anchors": ["quantfinlib/train_test_split/_base.py:_purge", "quantfinlib/train_test_split/_base.py:_embargo", "quantfinlib/train_test_split/kfoldpe.py:TimeAwareKFold.split"]}
{"id": "C04", "title": "K-fold yields exactly get_n_splits() splits", "statement": "A run of split that raises nothing yields exactly get_n_splits() pairs (n_folds, or n_folds-1 when look_forward).", "quantifier": "all inputs on which split completes", "why_tests_cant": "depends on all group layouts and settings", "anchors": ["quantfinlib/train_test_split/kfoldpe.py:TimeAwareKFold.get_n_splits", "quantfinlib/train_test_split/kfoldpe.py:TimeAwareKFold.split"]}
{"id": "C05", "title": "K-fold on a group that fills a whole fold", "statement": "If one group covers an entire nominal fold that is not the first to contain it, the split does not produce a usable result although the settings pass validation: with numpy groups split raises (IndexError before yielding anything when the last group reaches across a nominal fold boundary, ValueError otherwise, or IndexError when look_forward meets the empty fold), with DatetimeIndex groups and look_forward=False a run that completes yields an empty test set for that fold; so 'sorted groups with at least n_folds distinct values can always be split' is false.", "quantifier": "existential counterexamples over group layouts", "why_tests_cant": "found only for rare group layouts that random tests do not hit", "anchors": ["quantfinlib/train_test_split/kfoldpe.py:_modify_fold_bounds", "quantfinlib/train_test_split/_base.py:_purge"]}
{"id": "C06", "title": "K-fold default groups: balanced folds and guaranteed success", "statement": "Without groups and without look_forward, for n_samples >= n_folds and n_purge+n_embargo < n_samples - ceil(n_samples/n_folds), split never raises, and test sets are balanced: sizes differ by at most one, larger first.", "quantifier": "all n_samples, n_folds>=2, n_purge, n_embargo", "why_tests_cant": "unbounded sizes", "anchors": ["quantfinlib/train_test_split/kfoldpe.py:TimeAwareKFold.split", "quantfinlib/train_test_split/kfoldpe.py:_validate_split_settings"]}
{"id": "C07", "title": "Purge and embargo remove exactly the documented zone", "statement": "_purge removes from the given train set exactly the samples whose group lies in (max test group, max test group + n_purge]; _embargo exactly those in [min test group - n_embargo, min test group).  Each raises ValueError iff nothing is left; negative periods and unsorted groups are rejected with ValueError and mismatched period/group types with TypeError.", "quantifier": "all train/test index sets, group vectors and periods", "why_tests_cant": "boundary inclusivity must hold for every value", "anchors": ["quantfinlib/train_test_split/_base.py:_purge", "quantfinlib/train_test_split/_base.py:_embargo", "quantfinlib/train_test_split/_base.py:_validate_purge_embargo_inputs"]}
{"id": "C08", "title": "Splitter constructors reject exactly the invalid settings", "statement": "BaseCV-derived constructors succeed iff the periods are integers or Timedeltas and non-negative (and n_folds is an integer >= 2; split_type is 'expanding' or 'rolling'), raising TypeError/ValueError as documented otherwise.", "quantifier": "all constructor arguments", "why_tests_cant": "all values of the argument space", "anchors": ["quantfinlib/train_test_split/_base.py:BaseCV.__init__", "quantfinlib/train_test_split/kfoldpe.py:TimeAwareKFold.__init__", "quantfinlib/train_test_split/walk_forward.py:WalkForward.__init__"]}
{"id": "C09", "title": "Walk-forward on evenly spaced groups: exact windows", "statement": "If consecutive groups differ by 0 or by exactly one time unit, train_window >= 1, test_window >= 1, the first train+test window fits the data and n_embargo < train_window, then split terminates without error and its j-th pair is exactly: test = samples with group in [g0+W+jT, min(g0+W+(j+1)T-1, last)], train = samples with group in [start_j, g0+W-1+jT-n_embargo], start_j = g0 (expanding) or g0+jT (rolling).", "quantifier": "all evenly spaced group vectors with repetitions, integer or timestamp, all window sizes", "why_tests_cant": "unbounded number of iterations and sizes", "anchors": ["quantfinlib/train_test_split/walk_forward.py:WalkForward.split", "quantfinlib/train_test_split/_base.py:_embargo"]}
{"id": "C10", "title": "Walk-forward never trains on the future (evenly spaced groups)", "statement": "Under the conditions of C09 every training group precedes every test group by more than n_embargo units, so train and test are disjoint.", "quantifier": "all evenly spaced group vectors and windows", "why_tests_cant": "universal absence of leakage", "anchors": ["quantfinlib/train_test_split/walk_forward.py:WalkForward.split"]}
{"id": "C11", "title": "Walk-forward tests every later sample exactly once (evenly spaced groups)", "statement": "Under the conditions of C09 the concatenation of the yielded test sets is, in order, exactly the list of samples whose group is at least g0+train_window.", "quantifier": "all evenly spaced group vectors and windows", "why_tests_cant": "coverage over an unbounded number of windows", "anchors": ["quantfinlib/train_test_split/walk_forward.py:WalkForward.split"]}
{"id": "C12", "title": "Walk-forward leaks on unevenly spaced groups", "statement": "For sorted groups with gaps (for instance weekday-only dates with freq='D') the yielded training set can contain samples of the very same pair's test set, even with a positive embargo: 'train and test are disjoint' is false.", "quantifier": "existential over sorted group vectors with gaps", "why_tests_cant": "needs a specific alignment of gap and window; the test-suite only uses gap-free groups", "anchors": ["quantfinlib/train_test_split/walk_forward.py:WalkForward.split"]}
{"id": "C13", "title": "Walk-forward get_n_splits accumulates over runs", "statement": "After a complete run get_n_splits() returns the total number of pairs yielded over all runs of this splitter object so far (0 with a warning before the first completed run): equal to the length of the run after the first run, but strictly larger after a second run.", "quantifier": "all sequences of split runs on one splitter object", "why_tests_cant": "history dependent", "anchors": ["quantfinlib/train_test_split/walk_forward.py:WalkForward.get_n_splits", "quantfinlib/train_test_split/walk_forward.py:WalkForward.split"]}
{"id": "C14", "title": "Walk-forward terminates", "statement": "For every sorted integer or timestamp group vector and every positive test_window, split ends (normally or with an exception) after at most as many pairs as there are samples; with test_window=0 (the default) it can yield empty test sets forever.", "quantifier": "all sorted group vectors, all windows", "why_tests_cant": "termination for all inputs; non-termination cannot be observed by a test", "anchors": ["quantfinlib/train_test_split/walk_forward.py:WalkForward.split"]}
{"id": "C15", "title": "Walk-forward default train_window leaks", "statement": "With train_window=0 (the default) the first pair yielded has the first group both in train and in test, for every group vector on which a pair is yielded without embargo.", "quantifier": "all sorted integer group vectors", "why_tests_cant": "all inputs", "anchors": ["quantfinlib/train_test_split/walk_forward.py:WalkForward.split"]}
{"id": "C16", "title": "Splitters reject unsorted groups and bad containers before yielding anything", "statement": "split raises TypeError for non-array X, y or groups, ValueError for groups that are not in ascending order, and in these cases yields no pair.", "quantifier": "all inputs", "why_tests_cant": "all unsorted vectors", "anchors": ["quantfinlib/train_test_split/_base.py:BaseCV.split"]}
{"id": "C17", "title": "Walk-forward with a pandas Series of groups", "statement": "Although Series groups are documented, split on a Series of groups with a default index raises KeyError before yielding anything, for every such Series.", "quantifier": "all Series groups with RangeIndex", "why_tests_cant": "all inputs", "anchors": ["quantfinlib/train_test_split/walk_forward.py:WalkForward.split"]}
{"id": "C18", "title": "Simulated array layout and column names agree", "statement": "path_sample(num_steps, num_paths) of an m-variate model has num_steps+1 rows and m*num_paths columns; column p*m+v holds variate v of path p and its generated name is '<base v>_<p>' (just the base name for one path); generated names are pairwise distinct whenever base names are.", "quantifier": "all m, num_steps, num_paths, base name lists", "why_tests_cant": "unbounded sizes, injectivity of naming", "anchors": ["quantfinlib/sim/_base.py:SimBase._make_columns_names", "quantfinlib/sim/_base.py:SimBase._format_ans", "quantfinlib/sim/_bm.py:BrownianMotion._path_sample_np"]}
{"id": "C19", "title": "Every simulated path starts at x0", "statement": "Row 0 of a BM, OU or (for positive x0) GBM simulation equals x0 repeated for every path; an x0 whose length does not divide the number of columns is rejected with ValueError.", "quantifier": "all parameters, noise, x0, sizes", "why_tests_cant": "holds for every noise realisation", "anchors": ["quantfinlib/sim/_base.py:SimBase.set_x0", "quantfinlib/sim/_bm.py", "quantfinlib/sim/_gbm.py", "quantfinlib/sim/_ou.py"]}
{"id": "C20", "title": "Brownian motion increments", "statement": "For every noise realisation z the BM path satisfies x[t+1,p,v]-x[t,p,v] = drift_v*dt + vol_v*sqrt(dt)*(L z_{t,p})_v where L is the Cholesky factor (identity if no correlation given).", "quantifier": "all noise arrays, parameters, sizes", "why_tests_cant": "all noise realisations", "anchors": ["quantfinlib/sim/_bm.py:BrownianMotion._path_sample_np", "quantfinlib/sim/_base.py:_fill_with_correlated_noise"]}
{"id": "C21", "title": "Geometric Brownian motion positivity and log increments", "statement": "For positive x0 every simulated GBM value is strictly positive and log(x[t+1]/x[t]) = (drift-vol^2/2)*dt + vol*sqrt(dt)*(L z)_v; for x0=0 the path is identically 0 and for negative x0 every value is NaN.", "quantifier": "all noise arrays, parameters, sizes", "why_tests_cant": "all noise realisations", "anchors": ["quantfinlib/sim/_gbm.py:GeometricBrownianMotion._path_sample_np"]}
{"id": "C22", "title": "OU exact discretisation", "statement": "For mrr>0 the OU path satisfies x[t+1] = mean + (x[t]-mean)*exp(-mrr*dt) + s*(L z), s^2 = vol^2(1-exp(-2 mrr dt))/(2 mrr); hence with zero noise x[n]-mean = (x0-mean)exp(-mrr*n*dt) and two steps of dt agree with one step of 2dt; with mrr=0 every value after the first row is NaN.", "quantifier": "all noise arrays, parameters, sizes", "why_tests_cant": "all noise realisations", "anchors": ["quantfinlib/sim/_ou.py:OrnsteinUhlenbeck._path_sample_np"]}
{"id": "C23", "title": "Same seed, longer simulation: common prefix", "statement": "With the same seed, parameters, x0 and number of paths, the simulation of n steps is a prefix of the simulation of n+k steps, and repeating a call gives the identical array.", "quantifier": "all seeds, all n,k, all parameters", "why_tests_cant": "all lengths", "anchors": ["quantfinlib/sim/_base.py:_fill_with_correlated_noise", "quantfinlib/sim/_bm.py", "quantfinlib/sim/_gbm.py", "quantfinlib/sim/_ou.py"]}
{"id": "C24", "title": "BM fit inverts BM sampling", "statement": "Fitting BM to a simulated path returns drift + vol*mean(z)/sqrt(dt) and vol*std(z) per variate; in particular exactly the generating parameters when the noise sample has mean 0 and standard deviation 1.", "quantifier": "all noise arrays, parameters, lengths >= 3", "why_tests_cant": "all noise realisations", "anchors": ["quantfinlib/sim/_bm.py:BrownianMotion._fit_np"]}
{"id": "C25", "title": "GBM fit is biased against GBM sampling", "statement": "Fitting GBM to a path generated by GBM with noise of mean 0 and standard deviation 1 returns vol exactly but returns drift - vol^2/2 instead of drift: fit is not the inverse of path_sample unless vol=0.", "quantifier": "all parameters", "why_tests_cant": "a deterministic bias smaller than sampling noise is invisible to statistical tests", "anchors": ["quantfinlib/sim/_gbm.py:GeometricBrownianMotion._fit_np", "quantfinlib/sim/_gbm.py:GeometricBrownianMotion._path_sample_np"]}
{"id": "C26", "title": "Likelihoods agree with the sampling law", "statement": "For one variate BM.nll and OU.nll equal minus the sum of log normal densities of the increments under the law used by path_sample (mean/variance of C20/C22); GBM.nll does so only if dt=1 or drift=vol^2/2, since it omits the factor dt in the mean.", "quantifier": "all paths, parameters and dt", "why_tests_cant": "all dt values", "anchors": ["quantfinlib/sim/_bm.py:BrownianMotion._nll", "quantfinlib/sim/_gbm.py:GeometricBrownianMotion._nll", "quantfinlib/sim/_ou.py:OrnsteinUhlenbeck._nll"]}
{"id": "C27", "title": "OU fit", "statement": "For one series the fit is the least squares line: a noise-free OU path with x0 != mean returns exactly the generating mean and mrr and zero vol.  For several series all columns receive mean and mrr of the last column only.  After any fit, path_sample raises IndexError.", "quantifier": "all data matrices, parameters", "why_tests_cant": "all inputs, interaction of fit and sampling", "anchors": ["quantfinlib/sim/_ou.py:OrnsteinUhlenbeck._fit_np", "quantfinlib/sim/_ou.py:OrnsteinUhlenbeck._path_sample_np"]}
{"id": "C28", "title": "Multivariate OU with several paths is rejected", "statement": "With m>=2 mean reversion rates and num_paths>=2 and num_steps>=1 path_sample of OU raises ValueError for every x0 and noise.", "quantifier": "all parameters", "why_tests_cant": "all sizes", "anchors": ["quantfinlib/sim/_ou.py:OrnsteinUhlenbeck._path_sample_np"]}
{"id": "C29", "title": "Scoring changes the model", "statement": "nll, aic and bic overwrite the fit information: after model.nll(y, dt') path_sample() starts at the first row of y and uses dt', whatever fit() saw before; model parameters are unchanged.", "quantifier": "all models and data", "why_tests_cant": "history dependent", "anchors": ["quantfinlib/sim/_base.py:SimNllMixin.nll", "quantfinlib/sim/_base.py:SimBase._preprocess_fit_x_and_dt"]}
{"id": "C30", "title": "AIC/BIC values", "statement": "aic = 2k + 2*n*nll and bic = 2k*ln(n) + 2*n*nll with n the number of rows and k=2 (BM, GBM) or 3 (OU) whatever the number of variates, rather than 2k+2nll and k ln n + 2nll: bic-aic=2k(ln n-1).", "quantifier": "all data, all models", "why_tests_cant": "all sizes", "anchors": ["quantfinlib/sim/_base.py:SimNllMixin.aic", "quantfinlib/sim/_base.py:SimNllMixin.bic", "quantfinlib/sim/_bm.py:BrownianMotion.__init__"]}
{"id": "C31", "title": "Defaults of path_sample", "statement": "x0=None means fitted first row (or the model default when unfitted), 'first'/'last' mean first/last fitted row and raise ValueError when unfitted; dt=None means the dt of the last fit, else 1/252, never the documented label_freq duration; non-positive dt is rejected.", "quantifier": "all fit histories and arguments", "why_tests_cant": "history dependent", "anchors": ["quantfinlib/sim/_base.py:SimBase._preprocess_sim_path_args"]}
{"id": "C32", "title": "Output container of path_sample", "statement": "The result is a numpy array iff the model was not fitted on pandas data and no label/columns were given; a DatetimeIndex is attached whenever any label or fitted index exists; a request needing column names but no date index raises UnboundLocalError; include_x0=False drops exactly the first row, except that it raises for a Series result.", "quantifier": "all combinations of fit container and arguments", "why_tests_cant": "combinatorial state space", "anchors": ["quantfinlib/sim/_base.py:SimBase._format_ans"]}
{"id": "C33", "title": "Correlated noise has the requested covariance", "statement": "If the noise rows satisfy sum z z^T = n I and L L^T = cor, the BM increments minus drift satisfy sum dx dx^T = n dt D cor D.", "quantifier": "all dimensions, noise arrays", "why_tests_cant": "all dimensions", "anchors": ["quantfinlib/sim/_base.py:_fill_with_correlated_noise"]}
{"id": "C34", "title": "Correlation matrix from upper triangle", "statement": "For a list of k = d(d-1)/2 values the result is the symmetric d x d matrix with unit diagonal whose strict upper triangle read row by row is the list; any other length is rejected with ValueError.", "quantifier": "all list lengths and values", "why_tests_cant": "unbounded sizes", "anchors": ["quantfinlib/sim/_base.py:_make_cor_from_upper_tri", "quantfinlib/sim/_base.py:_triangular_index"]}
{"id": "C35", "title": "QuasiRandom path", "statement": "The QuasiRandom path equals the base path plus the cumulative sum of the indicator of the path up to the previous step, scaled by one constant per column so that the std (ddof 2) of the interior signal is f*vol*sqrt(dt); its first row is the base first row; a constant indicator makes the whole column NaN.", "quantifier": "all base paths, indicator functions", "why_tests_cant": "all indicator functions", "anchors": ["quantfinlib/sim/_quasi_random.py:QuasiRandom._path_sample_np"]}
{"id": "C36", "title": "Frequency detection", "statement": "time_series_freq returns None or one of D,B,W,ME,MS,QE,QS,YE,YS, each of which has a positive duration in the duration table; a calendar code is only returned when all but at most two stamps lie on that calendar boundary; daily stamps never classified as W.", "quantifier": "all date-time indices", "why_tests_cant": "all indices", "anchors": ["quantfinlib/_datatypes/timeseries.py:time_series_freq", "quantfinlib/_datatypes/timeseries.py:time_series_freq_to_duration"]}
{"id": "C37", "title": "Frequency detection on three stamps", "statement": "Any three-stamp index without two calendar-boundary stamps is classified as daily ('D') regardless of its spacing, e.g. weekly stamps: 'the returned code matches the spacing' is false.", "quantifier": "all three-stamp indices", "why_tests_cant": "tests use long ranges only", "anchors": ["quantfinlib/_datatypes/timeseries.py:time_series_freq"]}
{"id": "C38", "title": "Correlation distances: range, symmetry, zero diagonal", "statement": "For every accepted correlation matrix all three conversions give entries in [0,1], zero diagonal, and a symmetric matrix if the input is symmetric; scalars are mapped into [0,1] and the functions are monotone in the documented direction; non-square, non-unit-diagonal or asymmetric arrays are rejected.", "quantifier": "all matrices and scalars", "why_tests_cant": "all real inputs", "anchors": ["quantfinlib/distance/correlation.py:_convert_correlation_to_distance", "quantfinlib/distance/correlation.py:_conversion_function", "quantfinlib/distance/distance_matrix.py:corr_to_dist"]}
{"id": "C39", "title": "Correlation distances satisfy the triangle inequality on data", "statement": "For any three non-constant real vectors of equal length the angular, absolute angular and squared angular pair distances satisfy the triangle inequality.", "quantifier": "all vectors of all lengths", "why_tests_cant": "inequality over a continuum", "anchors": ["quantfinlib/distance/correlation.py:pair_angular_distance", "quantfinlib/distance/correlation.py:pair_abs_angular_distance", "quantfinlib/distance/correlation.py:pair_squared_angular_distance"]}
{"id": "C40", "title": "Correlation distances are invariant under affine rescaling", "statement": "pair distances do not change when a vector is shifted or scaled by a positive factor (any non-zero factor for the absolute and squared versions), are symmetric, and are zero between a vector and a positive affine image of itself.", "quantifier": "all vectors, shifts, scales", "why_tests_cant": "continuum", "anchors": ["quantfinlib/distance/correlation.py"]}
{"id": "C41", "title": "Variation of information is a bounded symmetric distance", "statement": "For any fixed bins, var_info(norm=False) is >=0, symmetric, zero on identical inputs, and satisfies the triangle inequality; normalised it lies in [0,1] whenever the joint entropy is positive.", "quantifier": "all data vectors, all bin counts", "why_tests_cant": "inequality over a continuum", "anchors": ["quantfinlib/distance/information.py:var_info", "quantfinlib/distance/information.py:compute_entropies"]}
{"id": "C42", "title": "Mutual information bounds", "statement": "For any fixed bins mutual_info(norm=False) is >=0, symmetric, at most either entropy; normalised it is in [0,1] when both entropies are positive, and 1 for identical inputs; a constant input makes it NaN.", "quantifier": "all data vectors, all bin counts", "why_tests_cant": "continuum", "anchors": ["quantfinlib/distance/information.py:mutual_info"]}
{"id": "C43", "title": "KL estimate is zero on identical inputs but not a divergence", "statement": "kl_divergence_xy(x,x)=0; but it is blind to shifts and positive rescalings of either argument (each histogram uses its own bin edges) and can be negative (mass in bins empty in y is dropped).", "quantifier": "all data", "why_tests_cant": "needs specific histograms", "anchors": ["quantfinlib/distance/information.py:kl_divergence_xy"]}
{"id": "C44", "title": "Automatic bin count", "statement": "For every n_obs>=1 the automatic bin count (no correlation) is >=1; for |corr|<1 it is >=1; for perfectly anti-correlated data the bivariate formula divides by zero and mutual_info/var_info fail.", "quantifier": "all n_obs, corr", "why_tests_cant": "continuum", "anchors": ["quantfinlib/distance/information.py:_get_optimal_nb_bins", "quantfinlib/distance/information.py:_get_nb_bins_from_xy"]}
{"id": "C45", "title": "Information distance matrix", "statement": "get_info_distance_matrix returns an m x m symmetric matrix with diagonal 0 (var_info) or 1 (mutual_info) whose (i,j) entry is the pair value of columns i<j; method names outside the two are rejected.", "quantifier": "all column counts", "why_tests_cant": "unbounded sizes", "anchors": ["quantfinlib/distance/distance_matrix.py:_get_info_distance_matrix", "quantfinlib/distance/distance_matrix.py:get_info_distance_matrix"]}
{"id": "C46", "title": "Matrix divergences vanish on equal arguments and are non-negative", "statement": "log_det_divergence(p,p)=0 and von_neuman_divergence(p,p)=0; for positive definite p,q both divergences are >= 0 and are 0 only if p = q.", "quantifier": "all positive definite matrices", "why_tests_cant": "continuum", "anchors": ["quantfinlib/distance/matrix_divergence.py:log_det_divergence", "quantfinlib/distance/matrix_divergence.py:von_neuman_divergence"]}
{"id": "C47", "title": "Covariance/correlation round trip", "statement": "_cov_to_cor yields entries in [-1,1]; if every variance is at least cov_reg and |cov_ij|<=std_i std_j, then the diagonal is 1 and _cor_to_cov(_cov_to_cor(cov))=cov. Each entry depends on its own covariance and two variances only, so NaN and infinite entries stay local. Arrays that are not square are rejected when neither dimension is 1; single rows and columns are divided by the regularised corner entry, and a vector of standard deviations fits an array when each dimension equals its length or one of them is 1.", "quantifier": "all matrices", "why_tests_cant": "continuum, all sizes", "anchors": ["quantfinlib/math/cov.py:_cov_to_cor", "quantfinlib/math/cov.py:_cor_to_cov"]}
{"id": "C48", "title": "Block diagonal correlation matrix", "statement": "_cor_block_diagonal has entry 1 on the diagonal, block_cors[b] between distinct assets of the same block b, and 0 between different blocks; hence symmetric; length mismatch is rejected.", "quantifier": "all block lists", "why_tests_cant": "unbounded sizes", "anchors": ["quantfinlib/math/cov.py:_cor_block_diagonal"]}
{"id": "C49", "title": "Eigenvalue denoising keeps the signal and the trace", "statement": "_eigen_values_denoise keeps the first k eigenvalues, replaces the others by their mean so that the sum is preserved and a descending order is preserved (when num_assets <= num_timesteps); when num_assets > num_timesteps it overwrites the caller's array with zeros in the last num_assets-num_timesteps positions.", "quantifier": "all eigenvalue lists and k", "why_tests_cant": "continuum", "anchors": ["quantfinlib/math/cov.py:_eigen_values_denoise"]}
{"id": "C50", "title": "Marchenko-Pastur support and density", "statement": "0 <= lower <= upper for positive var; the density is >= 0, zero outside the open support, positive inside; fit returns the grid variance maximising the log-likelihood (first one), or 0 if none beats -1e9.", "quantifier": "all parameters", "why_tests_cant": "continuum", "anchors": ["quantfinlib/math/cov.py:_marcenko_pastur_support", "quantfinlib/math/cov.py:_marchenko_pastur_pdf", "quantfinlib/math/cov.py:_marchenko_pastur_fit"]}
{"id": "C51", "title": "Reconstructed correlation matrices are valid", "statement": "_eig_to_cor always returns a symmetric matrix with unit diagonal and entries in [-1,1] or NaN; _eig_complete makes k<N eigenvalues sum to N, keeps the given pairs and rejects an empty set; _cor_to_eig returns distinct eigenpairs with their vectors, in descending order when sorting or when k is given, the largest k for k>0 and all but the |k| smallest for k<0; decomposing a correlation matrix and reconstructing it gives it back.", "quantifier": "all matrices, all k, any number of eigenpairs", "why_tests_cant": "all sizes; continuum", "anchors": ["quantfinlib/math/cov.py:_eig_to_cor", "quantfinlib/math/cov.py:_eig_complete", "quantfinlib/math/cov.py:_cor_to_eig"]}
{"id": "C52", "title": "Covariance denoising preserves variances and validity", "statement": "The diagonal of _cov_denoise(cov) is max(diag(cov), 1e-6), the result is symmetric and every off-diagonal entry is NaN or bounded by the product of the standard deviations. For a covariance matrix with variances >= 1e-6 the result is again positive semidefinite, for an automatic k and for every k that keeps at least one eigenvalue; k >= N returns the matrix unchanged. Non-arrays give TypeError, non-square matrices ValueError, and a k keeping nothing AssertionError.", "quantifier": "all covariance matrices of all sizes, all k, all sample counts", "why_tests_cant": "continuum; positive semidefiniteness quantifies over all vectors", "anchors": ["quantfinlib/math/cov.py:_cov_denoise", "quantfinlib/math/cov.py:_cor_denoise"]}
{"id": "C53", "title": "Features never look ahead", "statement": "For every indicator, band and micro-structure feature (and the CUSUM test) the output has the length of the input and its first k values depend only on the first k inputs.", "quantifier": "all series, all windows, all k", "why_tests_cant": "two-run (relational) property over all inputs", "anchors": ["quantfinlib/feature/indicators/_base.py", "quantfinlib/feature/indicators/_bands.py", "quantfinlib/feature/indicators/_macd.py", "quantfinlib/feature/indicators/_rsi.py", "quantfinlib/feature/micro_structure/_price_sequences.py", "quantfinlib/feature/micro_structure/_sequential_trade_models.py", "quantfinlib/feature/micro_structure/_strategic_trade_models.py", "quantfinlib/feature/structural_breaks/cusumtest.py"]}
{"id": "C54", "title": "Numpy and pandas inputs give the same numbers", "statement": "For every decorated feature: numpy arrays in give a numpy array out, Series in give a Series out, with equal values; mixtures and other types raise TypeError.", "quantifier": "all argument lists", "why_tests_cant": "all argument mixes", "anchors": ["quantfinlib/feature/indicators/_base.py:numpy_io_support"]}
{"id": "C55", "title": "Rolling statistics: warm-up and bounds", "statement": "For w>=1, rolling_mean/max/min are NaN exactly at positions with fewer than w inputs or with a NaN/inf in the window; otherwise min <= mean <= max, min and max are window elements, rolling_std>=0 and is 0 iff the window is constant (w>=2).", "quantifier": "all series and windows", "why_tests_cant": "all inputs", "anchors": ["quantfinlib/feature/indicators/_base.py:rolling_mean", "quantfinlib/feature/indicators/_base.py:rolling_std", "quantfinlib/feature/indicators/_base.py:rolling_max", "quantfinlib/feature/indicators/_base.py:rolling_min"]}
{"id": "C56", "title": "Exponential moving average is the documented weighted mean", "statement": "ewm_mean at t equals sum_i (1-a)^(t-i) x_i / sum_i (1-a)^(t-i) over the observed i<=t with a=2/(span+1); so it lies between the running min and max, equals a constant series, commutes with affine maps.", "quantifier": "all series (with gaps), spans >= 1", "why_tests_cant": "all inputs, unbounded recursion", "anchors": ["quantfinlib/feature/indicators/_base.py:ewm_mean"]}
{"id": "C57", "title": "Band ordering and identities", "statement": "For non-negative multiplier lower <= middle <= upper wherever defined, upper-lower = 2*multiplier*width, percent_b is 0 at the lower band and 1 at the upper band; Donchian upper/lower are the rolling max/min, contain the price, and percent_b is in [0,1] or NaN (flat window).", "quantifier": "all series, windows, multipliers", "why_tests_cant": "all inputs", "anchors": ["quantfinlib/feature/indicators/_bands.py:GenericBands", "quantfinlib/feature/indicators/_bands.py:BollingerBands", "quantfinlib/feature/indicators/_bands.py:DonchianBands", "quantfinlib/feature/indicators/_bands.py:KeltnerBands"]}
{"id": "C58", "title": "RSI range and symmetry", "statement": "rsi and ewm_rsi are in [0,100] or NaN; rsi of the negated series is 100 - rsi; strictly rising windows give 100; positive scaling and shifting leave it unchanged; it is NaN during warm-up or when the window has no price change.", "quantifier": "all series, periods", "why_tests_cant": "all inputs", "anchors": ["quantfinlib/feature/indicators/_rsi.py:rsi", "quantfinlib/feature/indicators/_rsi.py:ewm_rsi"]}
{"id": "C59", "title": "MACD identities", "statement": "macd is 0 on constant series and when fast=slow, antisymmetric under swapping fast and slow, linear in scale; macd_signal returns the histogram macd - EMA(macd), not the signal line.", "quantifier": "all series, spans", "why_tests_cant": "all inputs", "anchors": ["quantfinlib/feature/indicators/_macd.py:macd", "quantfinlib/feature/indicators/_macd.py:macd_signal"]}
{"id": "C60", "title": "Average true range", "statement": "With low<=high everywhere the ATR is >= 0, at least the smallest and at most the largest true range so far.", "quantifier": "all OHLC series", "why_tests_cant": "all inputs", "anchors": ["quantfinlib/feature/indicators/_base.py:average_true_range"]}
{"id": "C61", "title": "Volatility estimators are non-negative on valid bars", "statement": "If 0 < low <= open,close <= high on every bar, high-low, Garman-Klass, Rogers-Satchell, Yang-Zhang (window>=2) and Becker-Parkinson volatilities are >= 0 or NaN.", "quantifier": "all valid OHLC series", "why_tests_cant": "inequality over a continuum; Garman-Klass needs 2 ln 2 - 1 <= 1/2", "anchors": ["quantfinlib/feature/micro_structure/_price_sequences.py"]}
{"id": "C62", "title": "Volatility and spread estimators do not depend on the price unit", "statement": "Multiplying all prices by a positive constant leaves every volatility and spread estimator unchanged.", "quantifier": "all series and constants", "why_tests_cant": "continuum", "anchors": ["quantfinlib/feature/micro_structure/_price_sequences.py"]}
{"id": "C63", "title": "Corwin-Schultz spread", "statement": "The spread lies in [0,2) wherever defined; but because of a double negation the two-day range term increases alpha: the result equals the published estimator only when gamma=0, and increases where the published one decreases.", "quantifier": "all bars", "why_tests_cant": "needs comparison with an independent formula on all inputs", "anchors": ["quantfinlib/feature/micro_structure/_price_sequences.py:get_cowrin_schultz_spread", "quantfinlib/feature/micro_structure/_price_sequences.py:_get_alpha"]}
{"id": "C64", "title": "Edge spread", "statement": "The unsigned estimate is the absolute value of the signed one, is >= 0 or NaN, and NaN for a window without price variation.", "quantifier": "all windows", "why_tests_cant": "continuum", "anchors": ["quantfinlib/feature/micro_structure/_price_sequences.py:_edge_spread", "quantfinlib/feature/micro_structure/_price_sequences.py:get_edge_spread"]}
{"id": "C65", "title": "VPIN and bulk volume bounds", "statement": "For positive volumes and a CDF with values in [0,1], estimated buy volume lies between 0 and volume, and VPIN of any buy volume in [0,volume] lies in [0,1] wherever defined.", "quantifier": "all series", "why_tests_cant": "continuum", "anchors": ["quantfinlib/feature/micro_structure/_sequential_trade_models.py:get_vpin", "quantfinlib/feature/micro_structure/_sequential_trade_models.py:estimate_buy_volume"]}
{"id": "C66", "title": "Price impact lambdas", "statement": "Kyle, Amihud and Hasbrouck lambdas are >= 0 or NaN for positive prices and volumes; an unchanged price makes Kyle's and Hasbrouck's lambda NaN for every window containing it, while Amihud's stays defined.", "quantifier": "all series", "why_tests_cant": "all inputs", "anchors": ["quantfinlib/feature/micro_structure/_strategic_trade_models.py"]}
{"id": "C67", "title": "Roll measure", "statement": "roll measure is >= 0 or NaN, equals 2*sqrt|cov of successive log returns|, and roll impact is its ratio to the dollar volume.", "quantifier": "all series", "why_tests_cant": "all inputs", "anchors": ["quantfinlib/feature/micro_structure/_price_sequences.py:get_roll_measure", "quantfinlib/feature/micro_structure/_price_sequences.py:get_roll_impact"]}
{"id": "C68", "title": "CUSUM test", "statement": "S[0]=crit[0]=0; for t>=1 and a series that has moved, S[t] is the maximum over n<t of (log y_t - log y_n)/(sigma_t sqrt(t-n)), crit[t]^2 = 4.6 + ln(t-n*) with n* the first maximiser, hence sqrt(4.6) <= crit[t] <= sqrt(4.6+ln t); the result is invariant under rescaling y.", "quantifier": "all positive series", "why_tests_cant": "all inputs", "anchors": ["quantfinlib/feature/structural_breaks/cusumtest.py"]}
{"id": "C69", "title": "Gap statistic invariances", "statement": "The gap statistic and its std depend only on the partition (not on label values) and are unchanged when all distances are multiplied by a positive constant; they do not depend on the global random state, but the call overwrites the global random state.", "quantifier": "all distance matrices, labels, seeds", "why_tests_cant": "continuum; state effects", "anchors": ["quantfinlib/clustering/metrics.py:gap_statistic"]}
{"id": "C70", "title": "Optimal number of clusters", "statement": "optimize_n_clusters returns a value in [2,max_clust-1] (gap) or [2,max_clust] (silhouette): the smallest k satisfying the gap rule, resp. the first maximiser; it raises IndexError when no k satisfies the gap rule and ValueError for an unknown metric.", "quantifier": "all linkages and metric values", "why_tests_cant": "all inputs", "anchors": ["quantfinlib/clustering/hierarchical.py:optimize_n_clusters"]}
{"id": "C71", "title": "HC distance source and linkage caching", "statement": "HC uses a given dist as is, otherwise corr if given, otherwise X; it raises ValueError exactly when the needed input is missing or the method is unknown; linkage is computed once and is the same on every later access.", "quantifier": "all constructor arguments and access sequences", "why_tests_cant": "history dependent", "anchors": ["quantfinlib/clustering/hierarchical.py:HC"]}
{"id": "C72", "title": "Validators", "statement": "The validating decorators call the function exactly when every named, supplied, non-None argument is a Series/array of dimension 1 with at least 2 elements (resp. DataFrame/array of dimension 2 with at least 2 columns) and raise ValueError otherwise; the arguments are passed unchanged.", "quantifier": "all argument lists", "why_tests_cant": "all inputs", "anchors": ["quantfinlib/util/_validate.py"]}
{"id": "C73", "title": "Logger configuration is idempotent", "statement": "After any history of configure_logger calls, added or removed handlers, level changes and messages, a configure_logger call leaves exactly one stream handler, plus one file handler iff it asked for one, all at its verbosity, and every later message of at least that level is written exactly once to each. If the file cannot be opened it raises and only the new stream handler is left. Importing quantfinlib.distance for the first time after the call (quantfinlib.clustering does so, too, see C127) raises the logger level to WARNING, so a lower verbosity is lost. A handler the program removes is gone and no other, one it adds receives each later message that passes both levels once, and setting the level changes nothing else.", "quantifier": "all call sequences", "why_tests_cant": "history dependent", "anchors": ["quantfinlib/util/_logging.py:configure_logger"]}
{"id": "C74", "title": "Treasury loader renaming", "statement": "load_treasury_rates renames exactly the documented maturities, keeps number and order of columns and all values, never merges two columns; every loader raises FileNotFoundError exactly when its file is missing.", "quantifier": "all column lists", "why_tests_cant": "all inputs", "anchors": ["quantfinlib/datasets/_dataloader.py"]}
{"id": "C75", "title": "A failed fit half-changes the model", "statement": "When fit() raises because the inferred frequency has no known duration, the parameters are kept but later simulations already start at the new data; on a new model dt is then missing and path_sample() without dt raises AssertionError. When fit() on several series raises, drift and vol are those of the new data while the noise is still correlated as before.", "quantifier": "all data, all earlier states", "why_tests_cant": "effects of exceptions on object state over all histories", "anchors": ["quantfinlib/sim/_base.py:SimBase._preprocess_fit_x_and_dt", "quantfinlib/sim/_bm.py:BrownianMotion._fit_np"]}
{"id": "C76", "title": "QuasiRandom.fit fails but has an effect", "statement": "QuasiRandom.fit never succeeds (NotImplementedError on good data), yet after it path_sample() starts at the first row of that data and uses its dt.", "quantifier": "all data, all earlier states", "why_tests_cant": "all inputs and histories", "anchors": ["quantfinlib/sim/_quasi_random.py:QuasiRandom._fit_np", "quantfinlib/sim/_base.py:SimBase.fit"]}
{"id": "C77", "title": "QuasiRandom paths depend on the horizon", "statement": "With the same seed, the first n rows of a QuasiRandom simulation of n+k steps are not the rows of the simulation of n steps (the signal scale uses the whole path), unlike the other models (C23).", "quantifier": "all indicator functions", "why_tests_cant": "needs relating two runs", "anchors": ["quantfinlib/sim/_quasi_random.py:QuasiRandom._path_sample_np"]}
{"id": "C78", "title": "Frequency of regular ranges", "statement": "On stamps at one fixed time of day: n>=3 consecutive calendar days are classified D; every-seventh-day stamps W from four stamps on (three are called D); consecutive business days B exactly when the range contains at least three weekends, otherwise D (so the documented example, two weeks of business days, gives D and not B); consecutive month ends (starts) ME (MS) except exactly four starting at a quarter end (start), which are QE (QS); consecutive quarter ends/starts QE/QS and year ends/starts YE/YS at every length >=3. Stamps that all lie on a 31 December are YE whatever their spacing.", "quantifier": "every start date, every length >= 3, every time of day", "why_tests_cant": "infinitely many starts and lengths; the exceptions depend on the alignment of the range with quarters and weekends", "anchors": ["quantfinlib/_datatypes/timeseries.py:time_series_freq"]}
{"id": "C79", "title": "Distance matrix of a data set", "statement": "get_corr_distance_matrix on complete data without constant columns returns, for an array and for a DataFrame alike, the m x m matrix whose (i,j) entry is the pair distance of columns i and j; with a constant column the array call fails with AssertionError while the DataFrame call returns NaN in that row and column, diagonal included.", "quantifier": "all data sets, all column counts, all three distance methods", "why_tests_cant": "unbounded sizes and a continuum of values; the two container types take different paths", "anchors": ["quantfinlib/distance/distance_matrix.py:get_corr_distance_matrix", "quantfinlib/distance/distance_matrix.py:_calculate_correlation"]}
{"id": "C80", "title": "Histogram entropies are the textbook ones", "statement": "With a bin count n>=1, the two single entropies and the joint entropy behind mutual_info/var_info equal the Shannon entropies (sum of -p ln p over the cells) of the data discretised on n equal cells between minimum and maximum; mutual_info = HX+HY-HXY and var_info = 2HXY-HX-HY (with the documented normalisations); vectors of equal length with finite values are accepted, others are rejected; the results do not change when either vector is shifted or positively rescaled, nor when both are reordered together.", "quantifier": "all data vectors, all bin counts, all affine changes of unit, all permutations", "why_tests_cant": "a continuum of values and all permutations; boundary values on cell edges matter", "anchors": ["quantfinlib/distance/information.py:compute_entropies", "quantfinlib/distance/information.py:mutual_info", "quantfinlib/distance/information.py:var_info"]}
{"id": "C81", "title": "Random covariance and correlation matrices", "statement": "_random_cov(dim) is symmetric positive semidefinite whatever the noise, and its trace is the mean of the squares of all the normal draws; dim=0 raises ZeroDivisionError. _random_cor(dim) is symmetric positive semidefinite with entries in [-1,1], but it is a correlation matrix exactly when every random variance reached 1e-6.", "quantifier": "all noise matrices, all dimensions", "why_tests_cant": "continuum; positive semidefiniteness quantifies over all vectors", "anchors": ["quantfinlib/math/cov.py:_random_cov", "quantfinlib/math/cov.py:_random_cor"]}
{"id": "C82", "title": "Exponentially weighted standard deviation is the debiased weighted one", "statement": "For span>1, ewm_std at t is NaN with fewer than two observations so far; otherwise its square is W/(W^2-W2) * sum_i w_i (x_i-m)^2 with w_i=(1-a)^(t-i) over the observed i<=t, W=sum w_i, W2=sum w_i^2 and m the value of ewm_mean; it is >=0 and 0 iff all observed values are equal.", "quantifier": "all series (with gaps), spans > 1", "why_tests_cant": "a recursive update with gaps; the identity must hold for every length and gap pattern", "anchors": ["quantfinlib/feature/indicators/_base.py:ewm_std", "quantfinlib/feature/indicators/_bands.py:EwmBollingerBands"]}
{"id": "C83", "title": "What the volatility estimators compute", "statement": "On positive prices high-low, Garman-Klass, Rogers-Satchell, close-close and Becker-Parkinson volatilities are, row by row, the published formulas over the trailing window with the documented warm-up; these (except Becker-Parkinson) are variances: multiplying all log prices by k multiplies them by k^2. Yang-Zhang does not follow its publication: it uses mean squares instead of variances and measures the open-to-close return from the previous bar's open.", "quantifier": "all positive OHLC series, windows and rows", "why_tests_cant": "needs comparison with an independent formula on all inputs", "anchors": ["quantfinlib/feature/micro_structure/_price_sequences.py"]}
{"id": "C84", "title": "Silhouette t-statistic", "statement": "On nonnegative distances with a zero diagonal and 2..n-1 clusters silhouette_tstat is the mean over the population standard deviation of the silhouettes (b-a)/max(a,b) (0 for points alone in their cluster), all in [-1,1]; it depends only on the partition and not on the unit of the distances; it is NaN or infinite when all silhouettes are equal; one cluster, or as many clusters as points, raises ValueError.", "quantifier": "all distance matrices, labels, units", "why_tests_cant": "continuum; all relabelings", "anchors": ["quantfinlib/clustering/metrics.py:silhouette_tstat"]}
{"id": "C85", "title": "Array, frame and series annotations", "statement": "The array annotation accepts exactly numpy arrays whose dtype casts to the declared one and whose shape has the declared number of dimensions and the declared extents, '*' matching any; it returns the value unchanged and raises TypeError otherwise. The DataFrame annotation requires every declared column with its dtype, looks at the whole-frame dtype only when no columns are declared, compares a two-element shape exactly (a '*' inside it matches nothing) and ignores shapes of another length. The Series annotation checks dtype and length. Each declared type of the splitters accepts exactly what it describes: index, group and integer label arrays are one-dimensional of a dtype that safely becomes a 64-bit integer (booleans included), float labels also floats and every integer width, fold bounds have two columns, features two dimensions or are a DataFrame; Series must have the very dtype; the arm declared for a DatetimeIndex refuses every DatetimeIndex.", "quantifier": "all values and declarations", "why_tests_cant": "all shapes and declarations", "anchors": ["quantfinlib/util/_custom_types.py", "quantfinlib/train_test_split/_dtypes.py"]}
{"id": "C86", "title": "K-fold: which fold tests which sample", "statement": "The j-th fold tests exactly the samples whose group starts (has its first sample) in the j-th nominal fold, the nominal folds being n_folds consecutive blocks of sizes differing by at most one, larger first.  This describes every pair that is yielded, in order, whether or not the run completes, for default, numpy and timestamp groups and for both values of look_forward (which starts with the second fold).", "quantifier": "all samples, groups, fold counts, yielded positions", "why_tests_cant": "any group layout; a wrong boundary shows only for particular alignments of groups and folds", "anchors": ["quantfinlib/train_test_split/kfoldpe.py:TimeAwareKFold.split", "quantfinlib/train_test_split/kfoldpe.py:_modify_fold_bounds"]}
{"id": "C87", "title": "K-fold: exactly when and how a run fails", "statement": "For groups and freq of matching kinds the outcome of split is determined as follows.  n_folds > n_samples or n_embargo + n_purge > n_samples - floor(n_samples/n_folds): ValueError, nothing yielded.  Otherwise, the last group reaches across a nominal fold boundary: IndexError, nothing yielded (for a Series any such group: KeyError).  Otherwise the folds are served in order and the run completes iff for each of them some sample is left for training and (numpy groups or look_forward) the fold tests some sample; at the first fold for which this fails it raises IndexError if look_forward and the fold is empty, ValueError otherwise.", "quantifier": "all settings, sample counts and group layouts", "why_tests_cant": "exact characterisation of success over an unbounded input space", "anchors": ["quantfinlib/train_test_split/kfoldpe.py:TimeAwareKFold.split", "quantfinlib/train_test_split/kfoldpe.py:_validate_split_settings", "quantfinlib/train_test_split/kfoldpe.py:_modify_fold_bounds", "quantfinlib/train_test_split/_base.py:_purge", "quantfinlib/train_test_split/_base.py:_embargo"]}
{"id": "C88", "title": "K-fold with a pandas Series of groups", "statement": "A Series of integers as groups never yields a split, whatever the settings.  A Series of timestamps (default index) gives exactly what the DatetimeIndex with the same values gives unless a group reaches across a nominal fold boundary, in which case split raises KeyError before yielding anything.", "quantifier": "all Series of groups with RangeIndex, all settings", "why_tests_cant": "all group layouts", "anchors": ["quantfinlib/train_test_split/kfoldpe.py:TimeAwareKFold.split", "quantfinlib/train_test_split/kfoldpe.py:_modify_fold_bounds", "quantfinlib/train_test_split/_base.py:_validate_purge_embargo_inputs"]}
{"id": "C89", "title": "Walk-forward on any sorted groups", "statement": "For every sorted integer groups or DatetimeIndex (gaps and repetitions allowed) with windows of at least one unit: every yielded pair has a non-empty training set and a non-empty test set made of whole groups; the test set is one block of samples; no training group is later than any test group; a training sample that is not also a test sample is more than the embargo before every test sample; from pair to pair the test set moves on by at least test_window.  If no group follows the training window or the first test window does not fit, split raises IndexError and yields nothing; otherwise the first pair is determined exactly.  On groups with gaps it does not hold that a sample is tested at most once, nor that every later sample is tested, nor that a run that yielded a pair ends without IndexError, nor that a run yields a pair at all.", "quantifier": "all sorted integer groups and DatetimeIndex groups, all window lengths >= 1, embargoes, split types and numbers of resumptions", "why_tests_cant": "all group layouts with gaps", "anchors": ["quantfinlib/train_test_split/walk_forward.py:WalkForward.split", "quantfinlib/train_test_split/_base.py:embargo"]}
{"id": "C90", "title": "Walk-forward on groups that repeat with the test window", "statement": "When the groups lie on the unit grid and are closed under adding test_window up to the last group (evenly spaced series, or business days with whole-week test windows), a sample lies at the nominal end of the training window and the embargo is shorter than the distance to the first test group, split completes; the k-th pair is the first pair moved by k test windows (the training start stays when expanding); every training group is before every test group by more than the embargo; if moreover a sample lies at the nominal end of the first test window, every later sample is tested exactly once.", "quantifier": "all such groups, windows, embargoes and split types", "why_tests_cant": "all lengths and calendars", "anchors": ["quantfinlib/train_test_split/walk_forward.py:WalkForward.split"]}
{"id": "C91", "title": "Bands: exact values, rejected windows and units", "statement": "For Bollinger, EWM-Bollinger and Keltner bands the middle line is the moving (rolling or exponential) mean of the series (the closes for Keltner), the upper and lower lines are that mean plus and minus the multiplier times the moving standard deviation (the average true range for Keltner), bandwidth is their distance over the mean and %B the position of the series between them, row by row.  For a full window of numbers these are the sample mean and the sample standard deviation (divisor window - 1) of that window.  A negative window or a span below one raises ValueError; others give bands.  Multiplying prices by b > 0 and adding c moves the middle, upper and lower lines in the same way and leaves %B unchanged.", "quantifier": "all series, windows, spans, multipliers and changes of unit", "why_tests_cant": "continuum of prices, all lengths and windows", "anchors": ["quantfinlib/feature/indicators/_bands.py:GenericBands", "quantfinlib/feature/indicators/_bands.py:BollingerBands", "quantfinlib/feature/indicators/_bands.py:EwmBollingerBands", "quantfinlib/feature/indicators/_bands.py:KeltnerBands", "quantfinlib/feature/indicators/_bands.py:DonchianBands"]}
{"id": "C92", "title": "Momentum: exact values", "statement": "rolling_mom(ts, w) is, at each row from the w-th on, the difference to the value w rows before divided by w, i.e. the mean of the last w changes; NaN earlier and when either value is missing; with window 0 it is NaN everywhere and with a negative window it looks ahead.  ewm_mom is the exponential mean of the one-step changes, NaN until max(min_periods, 1) changes have been seen; span < 1 raises ValueError.  On a straight line both equal its slope.", "quantifier": "all series, windows, spans, min_periods", "why_tests_cant": "all lengths and values", "anchors": ["quantfinlib/feature/indicators/_base.py:rolling_mom", "quantfinlib/feature/indicators/_base.py:ewm_mom"]}
{"id": "C93", "title": "Correlation distance matrix: transformer, missing observations and rejections", "statement": "get_corr_distance_matrix converts the correlation matrix, or what the transformer returns for it, with the chosen distance; an exception of the transformer propagates; the identity transformer changes nothing.  An unknown correlation method is rejected first, then data that are no table with at least two columns, last an unknown distance.  With missing observations the entry (i, j) is the distance of the correlation over the rows where both columns are present; it is NaN if one of them is constant there, in which case a numpy input raises AssertionError and a DataFrame gives NaN entries.  The triangle inequality of the angular distance (C39) does not carry over to data with missing observations.", "quantifier": "all tables, methods and transformers", "why_tests_cant": "all patterns of missing values; arbitrary callables", "anchors": ["quantfinlib/distance/correlation.py", "quantfinlib/distance/distance_matrix.py"]}
{"id": "C94", "title": "Spearman distances", "statement": "With the Spearman method the entry (i, j) of the distance matrix is the distance of the Pearson correlation of the average ranks within the rows where both columns are present.  Strictly increasing transformations of the columns leave the whole result unchanged.  The angular distance is 0 exactly when the two columns are ordered alike and is 1 when they are ordered oppositely.", "quantifier": "all tables, all strictly increasing transformations", "why_tests_cant": "all functions, all orders with ties and missing values", "anchors": ["quantfinlib/distance/correlation.py", "quantfinlib/distance/distance_matrix.py"]}
{"id": "C95", "title": "Correlated models: accepted correlations and simulated covariances", "statement": "BM, GBM and OU accept a symmetric correlation matrix exactly when it is positive definite (two variates: -1 < rho < 1); one that is not positive definite, not square or has a NaN on or below the diagonal raises LinAlgError at construction.  Over noise with zero cross moments and unit second moments, the simulated increments (BM), log increments (GBM) and one-step deviations (OU) have exactly the covariances vol_i vol_j cor_ij dt (OU: s_i s_j cor_ij with s of C22).  Entries above the diagonal never influence the paths.  A positive definite matrix of the wrong size is accepted at construction and then every path_sample of BM, GBM or OU raises ValueError.", "quantifier": "all symmetric matrices, sizes, parameters, noise arrays, numbers of steps and paths", "why_tests_cant": "all matrices and dimensions; matrices that are slightly indefinite", "anchors": ["quantfinlib/sim/_bm.py:BrownianMotion.__init__", "quantfinlib/sim/_gbm.py", "quantfinlib/sim/_ou.py", "quantfinlib/sim/_base.py:_fill_with_correlated_noise"]}
{"id": "C96", "title": "Correlated models: likelihoods", "statement": "With a correlation matrix, nll of BM is minus the log-likelihood of the increments under the normal law with mean drift*dt and covariance vol_i vol_j cor_ij dt, nll of OU that of the one-step deviations with the covariance of C95, nll of GBM that of the log returns with mean drift - vol^2/2 without the factor dt.  The nll of BM on its own path is half the sum of squares of the noise plus n*(m/2 ln(2 pi dt) + sum ln vol + ln det(cor)/2).  A single volatility shared by several correlated variates can be simulated but nll raises ValueError; so does nll of an OU model that was fitted to several series.", "quantifier": "all data, parameters, dimensions, step sizes", "why_tests_cant": "all dimensions and data", "anchors": ["quantfinlib/sim/_bm.py:BrownianMotion._nll", "quantfinlib/sim/_gbm.py:GeometricBrownianMotion._nll", "quantfinlib/sim/_ou.py:OrnsteinUhlenbeck._nll", "quantfinlib/sim/_ou.py:OrnsteinUhlenbeck._fit_np"]}
{"id": "C97", "title": "Correlated OU paths depend on the step size", "statement": "The value of every variate after n steps is an affine function of the noise numbers.  The covariance of variates i and j after n steps of dt equals the one after a single step of n*dt exactly when the two mean reversion rates are equal or the correlation is zero: variances are consistent, correlations between variates of different rates are not.", "quantifier": "all parameters, correlations, step sizes and n >= 2", "why_tests_cant": "a deterministic bias that sampling noise hides; all step sizes", "anchors": ["quantfinlib/sim/_ou.py:OrnsteinUhlenbeck._path_sample_np"]}
{"id": "C98", "title": "Fitting BM and GBM to several series", "statement": "fit on m >= 2 series with n >= 2 increments (log returns for GBM) raises ValueError if some series has constant increments; otherwise LinAlgError if some weighted sum of the increments, weights not all zero, is constant, and in particular whenever n <= m; otherwise it succeeds and stores the sample correlation matrix with its Cholesky factor.  Fit followed by path_sample with the same dt reproduces the sample means and covariances of the increments exactly, over noise with zero cross moments and unit second moments.", "quantifier": "all data with finite values, all dimensions (exact arithmetic)", "why_tests_cant": "all dimensions and data, linear dependence among series", "anchors": ["quantfinlib/sim/_bm.py:BrownianMotion._fit_np", "quantfinlib/sim/_gbm.py:GeometricBrownianMotion._fit_np", "quantfinlib/sim/_bm.py:BrownianMotion._path_sample_np"]}
{"id": "C99", "title": "Features of Series with different dates", "statement": "For Series with strictly increasing dates: if all inputs share their dates, the result has those dates and the values of the function of the values alone.  Otherwise the result has one row per date occurring in some input (the middle of the Keltner channel: the dates of the close), and cutting every input at a time t gives exactly the result up to t, so nothing looks ahead.  High-low, Rogers-Satchell, VPIN and EDGE equal the function of the inputs written out on the union of the dates with NaN for missing rows; functions that take price changes do so between neighbouring dates of the price itself.  In high-low, Rogers-Satchell, VPIN and the three lambdas a date missing from one input makes every window containing it NaN.  estimate_buy_volume is the exception: it pairs the volume by position with the union of price and sigma dates, refuses other lengths with ValueError (but gives NaN on every date when price and sigma have a single date between them), and can carry a later price into an earlier date.", "quantifier": "all Series with strictly increasing dates, all overlaps, all windows, all cut times", "why_tests_cant": "all patterns of overlapping and missing dates", "anchors": ["quantfinlib/feature/micro_structure/_price_sequences.py:get_high_low_volatility", "quantfinlib/feature/micro_structure/_price_sequences.py:get_edge_spread", "quantfinlib/feature/micro_structure/_price_sequences.py:_get_sigma", "quantfinlib/feature/micro_structure/_sequential_trade_models.py:get_vpin", "quantfinlib/feature/micro_structure/_sequential_trade_models.py:estimate_buy_volume", "quantfinlib/feature/micro_structure/_strategic_trade_models.py:get_kyle_lambda", "quantfinlib/feature/indicators/_base.py:average_true_range", "quantfinlib/feature/indicators/_bands.py:KeltnerBands"]}
{"id": "C100", "title": "Floating point: what survives rounding", "statement": "With every arithmetic operation rounded (any monotone, odd, idempotent rounding under which 1, 100 and doubled floats are exact; IEEE double precision is one, overflow aside): correlation distances are floats in [0, 1], exactly 0 for correlation 1 and above, never ordered against the correlations, symmetric in sign for the absolute and squared versions; the diagonal of a distance matrix is exactly 0.  RSI and EWM-RSI stay in [0, 100], and a window (history) without losses gives exactly 100, one without gains exactly 0, or NaN, although pandas' running sums accumulate errors.  A lower band is never above the middle, nor an upper band below it; true ranges and average true ranges are never negative when low <= high; the Corwin-Schultz spread lies in [0, 2] and is exactly 0 when alpha is not positive.  BM and OU paths start exactly at x0, and a longer simulation from the same seed starts with the shorter one.  Geometric Brownian motion does not start exactly at x0 in general (in double precision some x0 near 100 is missed whatever the exponential function), and its values are non-negative but can underflow to 0.  Without rounding all these models coincide with those of the other properties.", "quantifier": "all inputs, all roundings with these properties, all machine exponential functions with the stated bounds", "why_tests_cant": "rounding errors at particular inputs; sampling cannot cover 2^64 values", "anchors": ["quantfinlib/distance/correlation.py", "quantfinlib/distance/distance_matrix.py", "quantfinlib/feature/indicators/_rsi.py", "quantfinlib/feature/indicators/_bands.py", "quantfinlib/feature/indicators/_base.py", "quantfinlib/feature/micro_structure/_price_sequences.py", "quantfinlib/sim/_bm.py:BrownianMotion._path_sample_np", "quantfinlib/sim/_gbm.py:GeometricBrownianMotion._path_sample_np", "quantfinlib/sim/_ou.py:OrnsteinUhlenbeck._path_sample_np"]}
{"id": "C101", "title": "Floating point: correlation matrices", "statement": "The conversions of a numpy correlation matrix demand a diagonal of exact ones.  In double precision np.corrcoef of any two-row data with a column 0, 2 has a diagonal entry 1 - 2^-53, and all conversions raise AssertionError although the matrix is a correlation matrix (without rounding it is accepted).  The correlations get_corr_distance_matrix computes itself (pandas) do not suffer from this: a column correlated with itself gives exactly 1, with its negative exactly -1, unless the sum of squared deviations is below 2^-500; so if all columns vary that much and all pairs have a correlation, numpy and DataFrame inputs both give a symmetric matrix with zero diagonal and entries in [0, 1].", "quantifier": "all data in double precision (overflow aside), all three distances", "why_tests_cant": "the last bit of a rounded result over all inputs", "anchors": ["quantfinlib/distance/correlation.py", "quantfinlib/distance/distance_matrix.py:get_corr_distance_matrix"]}
{"id": "C102", "title": "Matrix divergences: values and invariances", "statement": "For positive definite p, q: log_det_divergence(p, q) = tr(q^-1 p) - n + ln det q - ln det p, twice the Kullback-Leibler divergence of centred normals.  It is unchanged when both arguments become M p M^T and M q M^T for an invertible M (other units, other portfolios, another order of the series), and the divergence of the inverses is the divergence with the arguments exchanged.  von_neuman_divergence is unchanged by a common rotation and proportional to a common scale.  For diagonal matrices they are the sums of a/b - 1 - ln(a/b) and of a ln(a/b) - a + b.  Neither is symmetric nor satisfies the triangle inequality.", "quantifier": "all dimensions, all positive definite matrices and invertible transformations", "why_tests_cant": "all matrices of all dimensions", "anchors": ["quantfinlib/distance/matrix_divergence.py:log_det_divergence", "quantfinlib/distance/matrix_divergence.py:von_neuman_divergence"]}
{"id": "C103", "title": "Fitting OU to one series: every case", "statement": "fit of OU on any series of at least three finite values succeeds.  Its parameters come from one line: the least squares line of x[t+1] on x[t] (of smallest coefficients if all x[t] are equal), replaced by slope 1e-8 and intercept mean(x[1:]) if its slope is at most 1e-8.  mrr = -ln(slope)/dt is positive, zero or negative exactly as the slope is below, at or above 1; at slope 1 mean is infinite or NaN and vol NaN, otherwise all are numbers and vol >= 0.  So m + c*q^t gives mean m, vol 0 and mrr -ln(q)/dt, negative for growth; a straight line gives mrr 0, infinite mean, NaN vol; a constant c gives mean c and vol 0 but mrr ln(1 + 1/c^2)/dt, which depends on the unit.  For series whose lagged values differ, replacing x by a*x + b keeps mrr, multiplies vol by |a| and maps mean to a*mean + b (at the slope floor: a*mean + b/(1 - 1e-8)).", "quantifier": "all series of three or more finite values, all dt > 0 (exact arithmetic)", "why_tests_cant": "all series; degenerate and explosive ones", "anchors": ["quantfinlib/sim/_ou.py:OrnsteinUhlenbeck._fit_np"]}
{"id": "C104", "title": "Fitting OU to several series", "statement": "fit of OU on m >= 2 series with n >= 2 steps succeeds exactly when no weighted sum, weights not all zero, of the residuals of the lines of C103 is constant over time; else it raises LinAlgError, with correlation replaced and mean, mrr, vol as before.  So it always fails if n <= m, or if one series follows its line exactly.  On success the correlation matrix is that of the residuals, mean and mrr are those of the last series alone, and the vol of every series uses the slope of the last one: it equals the vol of fitting that series alone exactly when the two slopes are equal.", "quantifier": "all data with finite values, all dimensions (exact arithmetic)", "why_tests_cant": "all dimensions and data, linear dependence among residuals", "anchors": ["quantfinlib/sim/_ou.py:OrnsteinUhlenbeck._fit_np"]}
{"id": "C105", "title": "Fitted models and the largest likelihood", "statement": "For one series with n changes, not all equal, nll of the fitted BM exceeds the smallest nll over all drifts and volatilities by exactly n/2 ln(n/(n-1)) - 1/2, which lies between 0 and 1/(2(n-1)); the smallest is reached only at the fitted drift and vol*sqrt((n-1)/n).  The same holds for OU if the fitted slope is above 1e-8 and below 1 (over all mean, mrr > 0, vol > 0).  For GBM the excess is larger by n*(drift*dt - drift + vol^2/2)^2/(2 vol^2 dt), at dt = 1 by n*vol^2/8, and the best drift is drift*dt + vol'^2/2: fit and nll disagree about the drift.", "quantifier": "all series with finite (GBM: positive) values, n >= 2, all dt > 0", "why_tests_cant": "a minimum over all parameters", "anchors": ["quantfinlib/sim/_bm.py:BrownianMotion._fit_np", "quantfinlib/sim/_bm.py:BrownianMotion._nll", "quantfinlib/sim/_gbm.py:GeometricBrownianMotion._fit_np", "quantfinlib/sim/_gbm.py:GeometricBrownianMotion._nll", "quantfinlib/sim/_ou.py:OrnsteinUhlenbeck._fit_np", "quantfinlib/sim/_ou.py:OrnsteinUhlenbeck._nll"]}
{"id": "C106", "title": "Clusters of an HC object", "statement": "For a symmetric matrix of distances with zero diagonal and linkage method single, complete, average, weighted or ward, get_clusters(k) returns for every integer k one label per item; there are exactly k clusters (at least 1, at most the number of items), labelled 0, 1, ... in the order in which they appear; more clusters always refine fewer clusters.  A matrix that is not square, not symmetric, has a nonzero diagonal or an entry that is no number is refused with ValueError, and so is an unknown method.  With centroid or median linkage there can be fewer clusters than asked for: three items at the same distance, k = 2, gives one cluster.  Holds for every way scipy may break ties and order branches.", "quantifier": "all matrices of distances, all k, all ways of breaking ties", "why_tests_cant": "all matrices; ties; inversions of the tree", "anchors": ["quantfinlib/clustering/hierarchical.py:HC.linkage", "quantfinlib/clustering/hierarchical.py:HC.get_clusters"]}
{"id": "C107", "title": "What the clusters are", "statement": "Every row of the linkage merges two clusters that exist at the time and are closest to each other, its height is their distance by the definition of the method (smallest, largest, mean, weighted mean distance of items, Ward's), and heights never decrease.  For every k there is a height h such that each cluster of get_clusters(k) is one item or a merge of height at most h, and any two of the clusters are at least h apart.  So with single linkage items of a cluster are joined by a chain of steps of at most h and items of different clusters are at least h apart; with complete linkage items of a cluster are at most h apart.  If the items fall into k groups such that every distance within a group is smaller than every distance between groups, get_clusters(k) returns exactly these groups (single, complete, average, weighted); for any other number the clusters are parts of groups, or the groups are parts of clusters.  So items at distance 0 from each other share a cluster unless every cluster consists of such items.", "quantifier": "all matrices of distances, all k, all ways of breaking ties", "why_tests_cant": "all matrices; the order of merges", "anchors": ["quantfinlib/clustering/hierarchical.py:HC.linkage", "quantfinlib/clustering/hierarchical.py:HC.get_clusters"]}
{"id": "C108", "title": "Optimal number of clusters of an HC object", "statement": "With metric silhouette get_optimal_nclusters raises ValueError whenever max_clust is at least the number of items, so with the default 20 for every matrix of up to 20 items; for smaller max_clust >= 2 it returns the smallest number of clusters with the largest t-statistic (or the first whose t-statistic is no number).  With metric gap it returns the smallest k from 2 to min(max_clust - 1, n - 2) whose gap exceeds the next gap minus its standard deviation, and raises IndexError if there is none; so it never returns n - 1 or n, and always raises for up to three items.", "quantifier": "all matrices of distances, all linkage methods but centroid and median, all random generators", "why_tests_cant": "all matrices and generators; the boundary between max_clust and the number of items", "anchors": ["quantfinlib/clustering/hierarchical.py:HC.get_optimal_nclusters", "quantfinlib/clustering/hierarchical.py:optimize_n_clusters", "quantfinlib/clustering/metrics.py:gap_statistic", "quantfinlib/clustering/metrics.py:silhouette_tstat"]}
{"id": "C109", "title": "HC objects made from data", "statement": "HC(X) of a table with a correlation as codependence method: if every two columns vary over the rows in which both are present, the object is made, its distances are the correlation distances of the columns, and get_clusters(k) returns k clusters for 1 <= k <= number of columns.  If some pair of columns does not, an array is refused with AssertionError, while with a DataFrame the object is made and linkage, get_clusters and get_optimal_nclusters raise ValueError.  Other units or origins of columns give the same object (Pearson), also with the sign reversed for the absolute and squared distances; strictly increasing transformations give the same object (Spearman).  If any two columns of a group are correlated more strongly than any two of different groups, get_clusters(number of groups) returns the groups.  With var_info, varying columns without missing values give an object with clusters unless two are perfectly anti-correlated, in which case HC raises OverflowError.", "quantifier": "all tables, all correlation and distance methods, all linkage methods but centroid and median, all ways scipy breaks ties", "why_tests_cant": "all tables with all patterns of missing values", "anchors": ["quantfinlib/clustering/hierarchical.py:HC.__init__", "quantfinlib/clustering/hierarchical.py:HC.get_clusters", "quantfinlib/distance/distance_matrix.py:get_corr_distance_matrix", "quantfinlib/distance/distance_matrix.py:get_info_distance_matrix"]}
{"id": "C110", "title": "Mass, mean and variance of the Marchenko-Pastur density", "statement": "The density returned by the Marchenko-Pastur pdf for variance var > 0, T observations and N variables vanishes outside the interval of the law, and integrates over it to min(1, T/N); its mean is var and its second moment var^2*(1 + N/T).  So for T >= N it is the density of a probability distribution with mean var and variance var^2*N/T; for T < N the missing mass 1 - T/N is the mass of the zero eigenvalues.", "quantifier": "all var > 0, all T, N >= 1 (exact arithmetic)", "why_tests_cant": "an integral over all reals, for all parameters", "anchors": ["quantfinlib/math/cov.py:_marchenko_pastur_pdf"]}
{"id": "C111", "title": "Comparing fitted models by likelihood, aic and bic", "statement": "In other units of the prices (all multiplied by c > 0) nll of a fitted BM or OU on a series with n changes rises by n*ln(c), while GBM gets the same parameters and the same nll, because its nll is the likelihood of the log returns and not of the prices.  So comparing BM with GBM by aic or bic does not depend on the data alone: for every series of positive prices, whose changes and log returns are not constant, there are units in which BM has the smaller aic and bic and units in which GBM has.", "quantifier": "all series with finite (positive) values, n >= 2, all dt > 0, all c > 0", "why_tests_cant": "all series and units", "anchors": ["quantfinlib/sim/_bm.py:BrownianMotion._nll", "quantfinlib/sim/_gbm.py:GeometricBrownianMotion._nll", "quantfinlib/sim/_ou.py:OrnsteinUhlenbeck._nll", "quantfinlib/sim/_base.py:SimNllMixin.aic", "quantfinlib/sim/_base.py:SimNllMixin.bic"]}
{"id": "C112", "title": "What the likelihoods are densities of", "statement": "For one series exp(-nll) of the two prices x0, y, as a function of y, is a probability density (integral 1) for BM and OU, and is the density of the next value path_sample simulates from x0: for all lo <= hi the normal draws that lead to a value in [lo, hi] have the probability obtained by integrating exp(-nll) from lo to hi.  For GBM exp(-nll) is no density of the price: it integrates to x0*exp(drift - vol^2/2 + vol^2*dt/2); exp(-nll)/y is the density of the simulated next price exactly if dt = 1 or drift = vol^2/2.  The nll of a longer series is the sum of the nll of its steps.", "quantifier": "all parameters (vol, mrr, dt > 0), all starting values, all intervals, all lengths of series (exact arithmetic)", "why_tests_cant": "integrals over all outcomes; all intervals", "anchors": ["quantfinlib/sim/_bm.py:BrownianMotion._nll", "quantfinlib/sim/_bm.py:BrownianMotion._path_sample_np", "quantfinlib/sim/_gbm.py:GeometricBrownianMotion._nll", "quantfinlib/sim/_gbm.py:GeometricBrownianMotion._path_sample_np", "quantfinlib/sim/_ou.py:OrnsteinUhlenbeck._nll", "quantfinlib/sim/_ou.py:OrnsteinUhlenbeck._path_sample_np"]}
{"id": "C113", "title": "What the clusters of an HC object depend on", "statement": "Multiplying all distances by c > 0 does not change which clusters an HC object can give, for the methods single, complete, average, weighted and ward.  For single, complete, average and weighted neither does adding a number to all distances between different items, and for single and complete only the order of the distances matters: so abs_angular and squared_angular distances give the same clusters with single and complete; with average and weighted the order of the distances does not determine the clusters.  Listing the items in another order gives the same partitions.  With the method single, when exactly k groups are connected by distances of at most h, the k clusters are those groups.", "quantifier": "all distance matrices, numbers of items and clusters, orders of items, all ways scipy breaks ties (exact arithmetic)", "why_tests_cant": "all matrices and all ways of breaking ties", "anchors": ["quantfinlib/clustering/hierarchical.py:HC.__init__", "quantfinlib/clustering/hierarchical.py:HC.get_clusters", "quantfinlib/distance/distance_matrix.py:get_corr_distance_matrix"]}
{"id": "C114", "title": "Fitting to one or two observations, and to lists", "statement": "A list of numbers is taken as one observation of as many series, so fitting BM or GBM to a list of two or more prices raises LinAlgError, and nll of it is 0, while aic and bic raise AttributeError.  Fitting BM or GBM to one observation of one series succeeds with drift and volatility nan.  Fitting to two observations gives the right drift and a volatility of nan, so every simulated value after the start is nan.", "quantifier": "all data with one row and all data with two rows, all models", "why_tests_cant": "all data, containers and random numbers", "anchors": ["quantfinlib/sim/_base.py:_to_numpy", "quantfinlib/sim/_base.py:SimBase.fit", "quantfinlib/sim/_bm.py:BrownianMotion._fit_np", "quantfinlib/sim/_gbm.py:GeometricBrownianMotion._fit_np", "quantfinlib/sim/_ou.py:OrnsteinUhlenbeck._fit_np", "quantfinlib/sim/_base.py:SimNllMixin.aic"]}
{"id": "C115", "title": "Paths of a model fitted to labelled data look like the data", "statement": "After a successful fit of BM or GBM to a DataFrame or Series with a DatetimeIndex, path_sample returns pandas data with num_steps+1 rows, whose columns have the names of the fitted data (name_0, name_1, ... if there are several paths) and whose dates have the frequency and index name of the data and start at its first date, or at its last date for x0=\"last\".  The result is a Series exactly if the data was one and one path is sampled.  If pandas finds no frequency in the dates, the fit succeeds but path_sample without label_freq raises AssertionError.", "quantifier": "all frames and series, all dates (sorted or not), all random numbers, numbers of steps and paths", "why_tests_cant": "all data, labels and random numbers", "anchors": ["quantfinlib/sim/_base.py:SimBase.fit", "quantfinlib/sim/_base.py:SimBase.path_sample", "quantfinlib/sim/_base.py:_get_column_names", "quantfinlib/sim/_base.py:SimBase._format_ans"]}
{"id": "C116", "title": "Eigenvalues given as an array of integers", "statement": "The density and denoising functions write into an array of the type of their input, so for integers fractions are lost: each density is the whole part of the real one and 0 at every eigenvalue x with pi x > sqrt(T/N); the fitted variance is 0 (which the density itself rejects) as soon as the largest eigenvalue is at least 2 and some eigenvalue has density 0, so automatic denoising changes nothing and reports all eigenvalues as signal; with a given k the tail becomes the whole part of its mean and the sum drops by up to one per replaced eigenvalue.", "quantifier": "all integer arrays, sample counts, variances and k", "why_tests_cant": "quantifies over all arrays of integers and all variances", "anchors": ["quantfinlib/math/cov.py:_marchenko_pastur_pdf", "quantfinlib/math/cov.py:_marchenko_pastur_fit", "quantfinlib/math/cov.py:_eigen_values_denoise"]}
{"id": "C117", "title": "Scores of models without a usable volatility, and failing scores", "statement": "If some volatility of an uncorrelated BM or GBM is zero, negative or NaN, then nll, aic and bic are NaN whatever the data, the other volatilities and dt; for OU this happens for a zero volatility and for a zero mean reversion rate.  A series whose changes (BM) or log-returns (GBM) are all equal, in exact arithmetic, is fitted with volatility 0, so a model fitted to it has the score NaN on its own data.  nll, aic and bic always succeed together or raise the same exception, and aic and bic are computed from the value nll returns.", "quantifier": "all models, data with at least two rows, dt; all straight series", "why_tests_cant": "all parameters and all data", "anchors": ["quantfinlib/sim/_base.py:SimBase.nll", "quantfinlib/sim/_base.py:SimBase.aic", "quantfinlib/sim/_base.py:SimBase.bic", "quantfinlib/sim/_bm.py:BrownianMotion._nll", "quantfinlib/sim/_gbm.py:GeometricBrownianMotion._nll", "quantfinlib/sim/_ou.py:OrnsteinUhlenbeck._nll"]}
{"id": "C118", "title": "The OU fit depends on the level of the series", "statement": "np.linalg.lstsq ignores the smaller singular value of [x, 1] if it is at most r = n 2^-52 times the larger one (n transitions), that is exactly if spread (1 + r^2) <= r (level^2 + spread^2 + 1).  Where no column does this (or it is constant) the fit is the least squares fit of C27 and C103.  Otherwise the line is the best multiple of the direction in which [x, 1] is largest, and for values in [lo, hi] with lo >= 1 the fitted mrr lies between -ln(hi/lo)/dt and ln((hi+1)/lo)/dt whatever the dynamics.  So adding a constant to a series changes the fitted mrr: 0, 1, 1.5 has rate ln 2 per step, the same plus 2^26 less than 1e-6.", "quantifier": "all series, levels, spreads and lengths below 2^52; singular values taken as exact", "why_tests_cant": "quantifies over all series and all levels", "anchors": ["quantfinlib/sim/_ou.py:OrnsteinUhlenbeck._fit_np"]}
{"id": "C119", "title": "Groups given as a Series whose index is not 0, 1, 2, ...", "statement": "TimeAwareKFold.split looks values of the groups up by label but compares and masks by position.  With the index 0..n-1 the two agree.  With any other index of distinct integers and distinct timestamps every yielded test fold is still a block of positions and each training set avoids it, but look-ahead, purging and embargo are measured from the values that carry the test positions as labels: the training set is exactly the positions outside the test fold that are not in those zones.  For a Series sorted after it was stored newest first, samples right after the test fold therefore stay in the training set.  If no position is a label (the tail of a longer table) split yields nothing and raises KeyError; WalkForward.split yields nothing and raises unless -1 is a label.", "quantifier": "all Series of distinct timestamps (or integers) with distinct integer labels, all settings", "why_tests_cant": "quantifies over all indexes, groups and settings", "anchors": ["quantfinlib/train_test_split/kfoldpe.py:TimeAwareKFold.split", "quantfinlib/train_test_split/kfoldpe.py:_modify_fold_bounds", "quantfinlib/train_test_split/kfoldpe.py:_get_train_index_per_split", "quantfinlib/train_test_split/_base.py:_purge", "quantfinlib/train_test_split/_base.py:_embargo", "quantfinlib/train_test_split/walk_forward.py:WalkForward.split"]}
{"id": "C120", "title": "Groups given as an array of fixed-width integers", "statement": "TimeAwareKFold.split computes with groups in the type of their array.  Where no difference of neighbouring groups, no group plus the purge period and no group minus the embargo period leaves the range of the type, it behaves as with unbounded integers.  For unsigned types the check that groups are sorted never fails, so unsorted groups are split and a test fold can share its groups with the training set, while signed groups in the same order are rejected.  A purge bound above the range, or an embargo bound below it, removes nothing at all: with unsigned groups 0, 1, 2, ... and an embargo longer than the distance of the test fold from group 0 the samples right before the test fold stay in the training set.", "quantifier": "all widths, signed and unsigned, all groups and periods (numpy 2 arithmetic)", "why_tests_cant": "quantifies over all arrays, widths and periods", "anchors": ["quantfinlib/train_test_split/kfoldpe.py:TimeAwareKFold.split", "quantfinlib/train_test_split/_base.py:BaseCV.split", "quantfinlib/train_test_split/_base.py:_validate_purge_embargo_inputs", "quantfinlib/train_test_split/_base.py:_purge", "quantfinlib/train_test_split/_base.py:_embargo"]}
{"id": "C121", "title": "The last rows suffice", "statement": "Every windowed feature can be computed from a short buffer: its value in row i is the last value of the same function called on the last k rows up to row i only, with k = window for the moving mean, standard deviation, maximum and minimum, all Bollinger and Donchian views, the high-low, Garman-Klass and Rogers-Satchell volatilities, the EDGE spread and VPIN; k = window + 1 for the momentum, RSI, close-close, Yang-Zhang and Becker-Parkinson volatilities, the Corwin-Schultz spread, Kyle's and Hasbrouck's lambda; k = window + 2 for Roll's measure and impact. These numbers are the smallest possible for mean, maximum, minimum and momentum. One row less is silently wrong for RSI: the last window rows give a number, but another one (0 in place of a positive value for a suitable series of every window >= 2). Amihud's lambda needs window + 1 rows if no closing price is missing, but no number of rows suffices otherwise, because percentage changes bridge gaps of any length. Exponential averages with span > 1 never forget exactly; from the last k rows they are off by at most M (span + 1) (1 - 2/(span+1))^k for values of absolute size up to M, the MACD by at most the sum of the two bounds of its spans, and macd_signal by at most M ((k + 1)(fast + slow + 2) + 2 (signal + 1)) Q^k, where Q is the largest of the three factors 1 - 2/(span+1). The average true range of prices between lo and hi is off by at most (hi - lo)(2 window q^k + q^(k-1)) with q = 1 - 1/window, and the Keltner channels by the error of the average plus the multiplier times that. The exponentially weighted momentum from the last k + 1 rows is off by at most M (span + 1) (1 - 2/(span+1))^k where no change between neighbouring rows exceeds M, and no number of rows gives it exactly when span > 1. The exponential RSI has no such bound: for every k and span > 1 there is a series with an RSI as close to 100 as one likes whose last k rows alone give 0.", "quantifier": "all windows, spans, series (with missing values) of any length, all rows", "why_tests_cant": "A test that recomputes a feature on a fixed slice covers one window and one series; that no earlier row can matter is a claim over all prefixes, and that fewer rows do not suffice over all buffer sizes.", "anchors": ["quantfinlib/feature/indicators/_base.py:rolling_mean", "quantfinlib/feature/indicators/_base.py:rolling_std", "quantfinlib/feature/indicators/_base.py:rolling_max", "quantfinlib/feature/indicators/_base.py:rolling_min", "quantfinlib/feature/indicators/_base.py:rolling_mom", "quantfinlib/feature/indicators/_base.py:ewm_mean", "quantfinlib/feature/indicators/_base.py:ewm_mom", "quantfinlib/feature/indicators/_base.py:average_true_range", "quantfinlib/feature/indicators/_bands.py:BollingerBands", "quantfinlib/feature/indicators/_bands.py:KeltnerBands", "quantfinlib/feature/indicators/_macd.py:macd", "quantfinlib/feature/indicators/_macd.py:macd_signal", "quantfinlib/feature/indicators/_bands.py:DonchianBands", "quantfinlib/feature/indicators/_rsi.py:rsi", "quantfinlib/feature/micro_structure/_price_sequences.py:close_close_volatility", "quantfinlib/feature/micro_structure/_price_sequences.py:yang_zhang_volatility", "quantfinlib/feature/micro_structure/_price_sequences.py:corwin_schultz_spread", "quantfinlib/feature/micro_structure/_price_sequences.py:roll_measure", "quantfinlib/feature/micro_structure/_price_sequences.py:edge_spread", "quantfinlib/feature/micro_structure/_sequential_trade_models.py:vpin", "quantfinlib/feature/micro_structure/_strategic_trade_models.py:kyle_lambda", "quantfinlib/feature/micro_structure/_strategic_trade_models.py:amihud_lambda", "quantfinlib/feature/micro_structure/_strategic_trade_models.py:hasbrouck_lambda"]}
{"id": "C122", "title": "What a model object remembers", "statement": "A model object may be fitted, scored and simulated from in any order, with calls that raise in between. Scoring and simulating never change the parameters, and no call changes the number of parameters counted by AIC and BIC. Whether a fit works, and which exception it raises, depends on the data alone. After a fit that works, parameters, fit information and all later answers are those of any other object of the class fitted to the same data (AIC and BIC: with the same parameter count). As long as no fit fails, the factor that correlates simulated series is the Cholesky factor of the correlation matrix used by the likelihood. After failed fits BM and GBM are a mixture: drift and vol come from the last fit call whose data could be read, even if it raised, the factor from the last one that worked; three fits, of which two fail, leave an object that scores with correlation 1 and simulates with correlation -1/2 without any error. OU keeps mean, rate and vol of the last fit that worked.", "quantifier": "all three classes, all objects, all sequences of calls with all arguments, succeeding or failing", "why_tests_cant": "A test runs one short sequence of calls; the claims are over all histories.", "anchors": ["quantfinlib/sim/_base.py:SimBase.path_sample", "quantfinlib/sim/_base.py:SimBase.fit", "quantfinlib/sim/_base.py:SimNllMixin.nll", "quantfinlib/sim/_base.py:SimNllMixin.aic", "quantfinlib/sim/_base.py:SimNllMixin.bic", "quantfinlib/sim/_bm.py:BrownianMotion._fit_np", "quantfinlib/sim/_gbm.py:GeometricBrownianMotion._fit_np", "quantfinlib/sim/_ou.py:OrnsteinUhlenbeck._fit_np"]}
{"id": "C123", "title": "Walk-forward splits on groups of fixed-width integers", "statement": "WalkForward.split on a numpy array of fixed-width integer groups adds its windows to the groups with wrap-around. If the type holds the windows, the last group plus either window and the span of the groups, the pairs are those of exact integers. A window the type does not hold raises OverflowError before any pair. Groups out of order are refused with ValueError as long as the type holds the differences of neighbouring groups. Beyond that the guarantees are lost: a training window that runs past the largest number of the type, which exact integers reject with IndexError, yields a first pair that trains and tests on the same sample; and on groups at the upper end of the type the generator offers an empty test set, then tests on samples it trains on, and never ends.", "quantifier": "every signed or unsigned type of any width; every ascending group array, window, embargo and number of resumptions", "why_tests_cant": "the tests use groups far from the limits of int64; narrow types and values near the limit, and a generator that never finishes, cannot be enumerated", "anchors": ["quantfinlib/train_test_split/walk_forward.py:WalkForward.split", "quantfinlib/train_test_split/_base.py:_embargo"]}
{"id": "C124", "title": "Several walk-forward runs of one object at once", "statement": "split of a WalkForward object may be called several times and the resulting generators advanced, interleaved, abandoned or closed in any order. Each generator answers exactly as if it were the only one; asked again and again, it gives the pairs of an uninterrupted run, then StopIteration (after an exception too). get_n_splits mixes them: it is 0 until some generator has been asked for more after a pair that tests the last sample, and from then on the number of pairs, over all generators, after which more was asked for, so a pair at which the user stopped is not counted.", "quantifier": "every sequence of split, next, close and get_n_splits on one object, with any arguments", "why_tests_cant": "tests drive one generator to its end; the interleavings of several, with early exits, are unbounded", "anchors": ["quantfinlib/train_test_split/walk_forward.py:WalkForward.split", "quantfinlib/train_test_split/walk_forward.py:WalkForward.get_n_splits"]}
{"id": "C125", "title": "Where get_project_root points to", "statement": "get_project_root() is the directory that holds the installed package, and get_project_root(s) the path below it with the names of s in order; a string and the Path of it, doubled or trailing slashes and single dots make no difference, and joining further names to the result is asking for the longer path. An argument that begins with a slash is itself the result, whatever the directory. Names '..' are kept: without them the file is below the directory, with them every place in the file system can be reached. The three data sets are three different files in quantfinlib/datasets/resources.", "quantifier": "every installation directory and every argument (POSIX paths, no symbolic links)", "why_tests_cant": "the tests join two or three fixed names; strings with any number of names, slashes and dots cannot be enumerated", "anchors": ["quantfinlib/util/_fs_utils.py:get_project_root", "quantfinlib/datasets/_dataloader.py:VIX_INDEX_LOCAL_PATH"]}
{"id": "C126", "title": "What the import statements bind", "statement": "from <package> import name gives, for every public name of the ten packages, the object of the file that defines it, for every module of a package that module, and binds nothing else; any other name is an ImportError. from <package> import * fails with TypeError and binds nothing for quantfinlib.sim and quantfinlib.util, because their __all__ lists objects in place of strings. For the other packages it succeeds, binds every public name to its object, never a name with a leading underscore, and nothing besides the public names and the package's own modules; those modules (such as metrics of quantfinlib.clustering) do overwrite variables of the same name.", "quantifier": "every package, every namespace of the caller, every set of further submodules imported before", "why_tests_cant": "what a star import binds depends on the names the program has and on the modules it has imported before; the tests use explicit imports in fresh namespaces", "anchors": ["quantfinlib/sim/__init__.py:__all__", "quantfinlib/util/__init__.py:__all__", "quantfinlib/clustering/__init__.py", "quantfinlib/feature/__init__.py", "quantfinlib/feature/indicators/__init__.py", "quantfinlib/feature/micro_structure/__init__.py", "quantfinlib/distance/__init__.py", "quantfinlib/datasets/__init__.py", "quantfinlib/train_test_split/__init__.py"]}
{"id": "C127", "title": "The modules load in every order", "statement": "Whatever modules of quantfinlib a program imports, in whatever order and number, no import fails because of a circular import, every module that was started has finished, its code having run exactly once, and the modules loaded are exactly those the imported ones need (their packages, and what these and they themselves import), independently of the order. The level of the logger is set again exactly by the imports of quantfinlib.distance or quantfinlib.clustering or of a module in them.", "quantifier": "every sequence of imports of modules of the library, from a fresh interpreter", "why_tests_cant": "import orders cannot be enumerated, and a test session loads each module once, in one order", "anchors": ["quantfinlib/util/__init__.py", "quantfinlib/distance/__init__.py", "quantfinlib/distance/distance_matrix.py:logger", "quantfinlib/clustering/__init__.py", "quantfinlib/clustering/hierarchical.py", "quantfinlib/sim/__init__.py", "quantfinlib/train_test_split/__init__.py", "quantfinlib/feature/__init__.py", "quantfinlib/feature/micro_structure/_price_sequences.py"]}
