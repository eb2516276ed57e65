{"id": "C01", "title": "chunker covers every item exactly once", "statement": "For positive n_items and chunk_size, taking X[s] for the slices yielded by chunker and concatenating gives back X, for any sequence X of n_items items; every slice is non-empty and at most chunk_size long, and every slice but the last is exactly chunk_size long, so that ceil(n_items/chunk_size) slices are produced. A ValueError is raised exactly when one of the arguments is not positive.", "quantifier": "all integers n_items, chunk_size and all sequences of that length", "why_tests_cant": "Boundary arithmetic has to be right for every pair (n, size); tests try a handful.", "anchors": ["src/bmi/utils.py: chunker"]}
{"id": "C02", "title": "Sample CSV files round-trip", "statement": "save_sample followed by read_sample returns the two arrays unchanged (same rows in the same order, columns in the same order, X and Y separated), and read_sample_dims on that file returns the two widths, for any number of rows and columns, in particular more than ten columns. save_sample refuses arrays that are not 2-dimensional or have different numbers of rows.", "quantifier": "all pairs of 2-D arrays with equal row counts and at least one column overall", "why_tests_cant": "The number of columns and their generated names are unbounded.", "anchors": ["src/bmi/utils.py: save_sample", "src/bmi/utils.py: read_sample", "src/bmi/utils.py: read_sample_dims"]}
{"id": "C03", "title": "ProductSpace standardization", "statement": "ProductSpace(x, y, standardize=True) yields arrays of the same shapes in which every column has mean 0 and, unless the original column is constant (then all zeros), mean square 1; with standardize=False the data are unchanged. A ValueError is raised exactly when the numbers of points differ. The caller's arrays are never modified.", "quantifier": "all data sets, all dimensions, constant columns included", "why_tests_cant": "It is a statement about all real data sets, including constant columns.", "anchors": ["src/bmi/utils.py: ProductSpace"]}
{"id": "C04", "title": "ProductSpace indexing agrees with concatenation", "statement": "space.xy has dim_x+dim_y columns, its i-th row is x[i] followed by y[i], and space[item] equals space.xy[item] for every valid integer (also negative) and slice start:end.", "quantifier": "all data sets and all integer or slice indices", "why_tests_cant": "Index arithmetic, including negative and out-of-range slices, ranges over an infinite set.", "anchors": ["src/bmi/utils.py: ProductSpace.__getitem__", "src/bmi/utils.py: ProductSpace.xy"]}
{"id": "C05", "title": "Standardization removes affine changes of units", "statement": "Rescaling each column of x or y by its own positive factor and shifting it does not change the arrays ProductSpace(standardize=True) produces; hence estimators working on it (KSG, KDE) return the same estimate in any units.", "quantifier": "all data sets, all positive scales and shifts per column", "why_tests_cant": "Equality must hold for all real data and unit changes.", "anchors": ["src/bmi/utils.py: ProductSpace.__init__", "src/bmi/estimators/ksg.py: KSGEnsembleFirstEstimator.fit"]}
{"id": "C06", "title": "Fast and slow KSG agree", "statement": "KSGEnsembleFirstEstimator and KSGEnsembleFirstEstimatorSlow return the same predictions for the same data and settings, whatever the chunk_size. (True when the neighborhoods are distinct; with a repeated neighborhood the fast one counts the digamma terms once per repetition, which is a divergence.)", "quantifier": "all data sets, metrics, neighborhood lists and chunk sizes", "why_tests_cant": "Two implementations must agree on all inputs; tests compare a few random samples with distinct neighborhoods.", "anchors": ["src/bmi/estimators/ksg.py: KSGEnsembleFirstEstimator.fit", "src/bmi/estimators/ksg.py: KSGEnsembleFirstEstimatorSlow.fit"]}
{"id": "C07", "title": "KSG computes equation (8)", "statement": "Each prediction for k is max(0, psi(k) + psi(n) - mean_i(psi(n_x(i)+1) + psi(n_y(i)+1))), where n_x(i) is the number of other points j whose x-distance to point i is strictly less than the k-th smallest among the max-metric distances from i to the other points; ties in the sorting and the chunk size do not matter.", "quantifier": "all data sets, metrics, k, chunk sizes and all tie-breaking orders of argsort", "why_tests_cant": "The result must not depend on the unspecified order in which argsort returns ties.", "anchors": ["src/bmi/estimators/ksg.py: KSGEnsembleFirstEstimator.fit", "src/bmi/estimators/ksg.py: KSGEnsembleFirstEstimatorSlow.fit"]}
{"id": "C08", "title": "KSG ignores the order of the samples", "statement": "Applying the same permutation to the rows of x and y does not change the KSG predictions.", "quantifier": "all data sets and all permutations", "why_tests_cant": "n! permutations of unbounded data.", "anchors": ["src/bmi/estimators/ksg.py: KSGEnsembleFirstEstimator"]}
{"id": "C09", "title": "KSG is symmetric", "statement": "Exchanging x and y (with their metrics) does not change the KSG predictions.", "quantifier": "all data sets and metrics", "why_tests_cant": "All real data.", "anchors": ["src/bmi/estimators/ksg.py: KSGEnsembleFirstEstimator"]}
{"id": "C10", "title": "KSG estimates are bounded", "statement": "Every prediction is at least 0, and at most psi(n) - psi(k) when no point has two others at the same max-metric distance and all distances are positive; the estimate is the mean of the predictions over the distinct neighborhoods so lies between the smallest and the largest.", "quantifier": "all data sets without ties, all neighborhoods", "why_tests_cant": "All real data sets.", "anchors": ["src/bmi/estimators/ksg.py: KSGEnsembleFirstEstimator.estimate"]}
{"id": "C11", "title": "KSG state machine", "statement": "get_predictions raises EstimatorNotFittedException until the first successful fit; afterwards it returns the predictions of the most recent successful fit, no matter which failing fits (too few points, length mismatch, bad chunk size) happened in between, and changing the returned dictionary does not change the estimator. Fits fail with ValueError exactly when lengths differ, when n <= max(neighborhoods), or (fast version) chunk_size <= 0.", "quantifier": "all histories of fit/estimate/get_predictions calls", "why_tests_cant": "Histories are unbounded.", "anchors": ["src/bmi/estimators/ksg.py: KSGEnsembleFirstEstimator.get_predictions", "src/bmi/estimators/ksg.py: KSGEnsembleFirstEstimator.fit"]}
{"id": "C12", "title": "KSG parameter validation", "statement": "The constructor accepts exactly the non-empty neighborhoods whose smallest entry is at least 1; metric_y defaults to metric_x.", "quantifier": "all neighborhood lists", "why_tests_cant": "All lists of integers.", "anchors": ["src/bmi/estimators/ksg.py: KSGEnsembleParameters"]}
{"id": "C13", "title": "KSG on duplicated points", "statement": "If some point has more than k exact copies then its neighbourhood radius is 0, no point is strictly closer, digamma is evaluated at 0, and the prediction is +infinity rather than finite.", "quantifier": "all data sets with at least k+1 copies of a point", "why_tests_cant": "Shape of the data is unbounded.", "anchors": ["src/bmi/estimators/ksg.py: KSGEnsembleFirstEstimator.fit"]}
{"id": "C14", "title": "Histogram MI is a valid mutual information", "statement": "HistogramEstimator returns the plug-in mutual information of the binned sample: it is non-negative, at most the log of the number of bins on each side, zero when the binned counts factorise, symmetric in x and y, and invariant to reordering of samples. The constructor accepts exactly positive numbers of bins, and uses n_bins_x for Y when n_bins_y is None or 0.", "quantifier": "all samples and bin numbers", "why_tests_cant": "Non-negativity is Gibbs' inequality, for all contingency tables.", "anchors": ["src/bmi/estimators/_histogram.py: HistogramEstimator.estimate"]}
{"id": "C15", "title": "Histogram MI does not depend on units", "statement": "Shifting and positively rescaling each coordinate does not change the histogram estimate; in particular the standardize flag has no effect, even on samples with constant coordinates.", "quantifier": "all samples, shifts, scales", "why_tests_cant": "All real data.", "anchors": ["src/bmi/estimators/_histogram.py: HistogramEstimator.estimate"]}
{"id": "C16", "title": "KDE estimator bookkeeping", "statement": "estimate equals entropy_x + entropy_y - entropy_xy of estimate_entropies, entropies are minus the mean log density of the density fitted to the same (optionally standardized) points; unspecified kernels/bandwidths for x and y default to the joint ones; exchanging x and y (and their settings) exchanges the marginal entropies.", "quantifier": "all samples and settings, for every kernel density estimator", "why_tests_cant": "All data and all settings.", "anchors": ["src/bmi/estimators/_kde.py: KDEMutualInformationEstimator"]}
{"id": "C17", "title": "CCA estimator", "statement": "CCAMutualInformationEstimator returns the sum over canonical pairs of -1/2 log(1-rho^2): it is non-negative, zero iff all correlations are zero, infinite iff some canonical pair is affinely related, and NaN when a canonical coordinate is constant.", "quantifier": "all samples and all canonical directions", "why_tests_cant": "All reals.", "anchors": ["src/bmi/estimators/correlation.py"]}
{"id": "C18", "title": "Linear-memory and quadratic-memory objectives agree", "statement": "For every critic and every paired batch, infonce, donsker_varadhan and nwj from the linear-memory backend equal those of the quadratic-memory backend, and both equal the textbook expressions (off-diagonal log-mean-exp, row-wise log-mean-exp); consequently the _train_backend argument changes neither the estimate nor the trained critic of InfoNCEEstimator, NWJEstimator and DonskerVaradhanEstimator.", "quantifier": "all critics, batches and batch sizes n >= 2 (n >= 1 for infonce)", "why_tests_cant": "All critics (functions) and batches.", "anchors": ["src/bmi/estimators/neural/_backend_linear_memory.py", "src/bmi/estimators/neural/_backend_quadratic_memory.py"]}
{"id": "C19", "title": "Variational bounds are ordered", "statement": "InfoNCE never exceeds log n; NWJ never exceeds Donsker-Varadhan on the same critic; DV and InfoNCE do not change when a constant is added to the critic, and NWJ with a suitable constant attains DV; InfoNCE also ignores per-x offsets.", "quantifier": "all critics and batches", "why_tests_cant": "Inequalities over all critics.", "anchors": ["src/bmi/estimators/neural/_backend_linear_memory.py"]}
{"id": "C20", "title": "Training loop schedule", "statement": "basic_training and mine_training perform at most max_n_steps optimisation steps numbered 1.., log the train value at each, evaluate the test value exactly at the steps that are multiples of test_every_n_steps, and stop early only directly after a test evaluation which completes a stall; every step applies the optimiser to the gradient of the negated objective on its own batch. test_every_n_steps = 0 is accepted by NeuralEstimatorParams and raises ZeroDivisionError in training.", "quantifier": "all step limits, test frequencies, data and early-stopping settings", "why_tests_cant": "Unbounded execution histories.", "anchors": ["src/bmi/estimators/neural/_basic_training.py: basic_training"]}
{"id": "C21", "title": "Reported MI is the best test value", "statement": "The MI reported after training is the maximum of the recorded test history; n_training_steps equals the number of logged training values.", "quantifier": "all histories of logged values", "why_tests_cant": "All histories.", "anchors": ["src/bmi/estimators/neural/_training_log.py: TrainingLog"]}
{"id": "C22", "title": "Early stopping rule", "statement": "Early stopping triggers exactly when the last two test evaluations both failed to improve strictly on the best value before them.", "quantifier": "all histories of logged values", "why_tests_cant": "All histories.", "anchors": ["src/bmi/estimators/neural/_training_log.py: TrainingLog.early_stop"]}
{"id": "C23", "title": "NaN test values", "statement": "If the first test value is NaN then the reported MI is NaN and no later finite value can replace it; a later NaN never replaces a number. With no test evaluation the reported MI is NaN.", "quantifier": "all histories with NaNs", "why_tests_cant": "All histories.", "anchors": ["src/bmi/estimators/neural/_training_log.py: TrainingLog.log_test_mi"]}
{"id": "C24", "title": "Train/test split is a partition", "statement": "train_test_split on the sample produces train and test parts which together contain each paired row exactly once, with x and y rows still paired; sizes follow the documented rule (None: everything used for both).", "quantifier": "all samples, split settings and permutations", "why_tests_cant": "All permutations and sizes.", "anchors": ["src/bmi/estimators/neural/_estimators.py: train_test_split"]}
{"id": "C25", "title": "Neural estimator history", "statement": "trained_critic is None before the first estimate and afterwards the critic trained in the most recent estimate that reached training; a batch size larger than the train set returns NaN with batch_size_larger_than_train without training; repeated estimates with the same data give the same result since the seed is fixed. The constructors accept exactly the two known backends (ValueError otherwise) with positive batch size, number of steps and learning rate (ValidationError otherwise).", "quantifier": "all histories of estimate calls, all training oracles", "why_tests_cant": "Histories are unbounded.", "anchors": ["src/bmi/estimators/neural/_estimators.py: NeuralEstimatorBase"]}
{"id": "C26", "title": "Batches keep pairs together", "statement": "get_batch returns rows of x and y with the same indices, so every pair in the batch is a pair of the data set; the batch has batch_size rows, drawn without replacement.", "quantifier": "all data, batch sizes, random choices", "why_tests_cant": "All random choices.", "anchors": ["src/bmi/estimators/neural/_basic_training.py: get_batch"]}
{"id": "C27", "title": "MINE moving average", "statement": "After t training steps the running log-denominator of MINE is the log of the exponentially weighted sum of the batch denominators, alpha weighting the past value; the weights add up to 1 - alpha^t, so the gradient correction of the first step is 1/(1-alpha).", "quantifier": "all step counts, batches and alpha", "why_tests_cant": "Unbounded number of steps.", "anchors": ["src/bmi/estimators/neural/_mine_estimator.py: _mine_value_neg_grad_log_denom", "src/bmi/estimators/neural/_mine_estimator.py: mine_training"]}
{"id": "C28", "title": "MINE unpaired samples", "statement": "_sample_paired_unpaired draws a paired batch with matching indices and an unpaired batch of y rows from the data set, both without repetition; the paired batch depends on the first subkey only, the unpaired one on the second subkey only.", "quantifier": "all data and random choices", "why_tests_cant": "All random choices.", "anchors": ["src/bmi/estimators/neural/_mine_estimator.py: _sample_paired_unpaired"]}
{"id": "C29", "title": "Training warnings", "statement": "finish raises early_stopping_not_triggered, training_too_short_for_diagnostics, max_training_mi_decreased and training_mi_still_increasing exactly under the stated conditions on the smoothed curve, where 'w steps ago' is the smoothed value w-1 steps earlier: with window 1 the final value is compared with itself, and a negative final value always raises max_training_mi_decreased.", "quantifier": "all histories", "why_tests_cant": "All histories.", "anchors": ["src/bmi/estimators/neural/_training_log.py: TrainingLog.detect_warnings"]}
{"id": "C30", "title": "Critic layer dimensions compose", "statement": "The MLP critic accepts any hidden layer list; consecutive layers have matching dimensions, the first takes dim_x+dim_y inputs and the last gives one output.", "quantifier": "all dims and hidden layer lists", "why_tests_cant": "All lists.", "anchors": ["src/bmi/estimators/neural/_critics.py: MLP"]}
{"id": "C31", "title": "Sampler dimensions", "statement": "Constructing any sampler with dim_x < 1 or dim_y < 1 fails; otherwise dim_x, dim_y report the arguments, dim_total their sum, and sample(n) returns n paired rows of those widths.", "quantifier": "all dimensions and sample sizes, all sampler kinds", "why_tests_cant": "All dimensions.", "anchors": ["src/bmi/samplers/base.py: BaseSampler", "src/bmi/samplers/base.py: _validate_dimensions"]}
{"id": "C32", "title": "Transformed samplers preserve MI and pairing", "statement": "TransformedSampler reports the base MI, applies transforms row-wise to the same draw, its dims are those of transform outputs, and composing two TransformedSamplers equals one with composed transforms. Adding a dimension only when declared.", "quantifier": "all base samplers, transforms and seeds", "why_tests_cant": "All functions.", "anchors": ["src/bmi/samplers/_transformed.py: TransformedSampler"]}
{"id": "C33", "title": "Independent concatenation", "statement": "IndependentConcatenationSampler has dims equal to sums of dims, MI the sum of MIs, and each block of its sample is a sample of the corresponding component drawn with its own key.", "quantifier": "all lists of samplers", "why_tests_cant": "Lists are unbounded.", "anchors": ["src/bmi/samplers/_independent_coordinates.py"]}
{"id": "C34", "title": "Additive uniform noise MI is the true MI", "statement": "For X uniform on (0,1) and Y = X + N with N uniform on (-eps, eps), the mutual_information of AdditiveUniformSampler equals h(Y) - h(Y|X) computed from the exact density of Y, for each eps>0; it is positive, decreasing in eps and continuous at 1/2. Samples satisfy |y-x| <= eps.", "quantifier": "all eps > 0", "why_tests_cant": "A continuum of parameter values; a sampling test has statistical error.", "anchors": ["src/bmi/samplers/_additive_uniform.py: AdditiveUniformSampler"]}
{"id": "C35", "title": "Discrete-uniform mixture MI is the true MI", "statement": "For X uniform on {0..m-1} and Y|X uniform on [X, X+2], the reported MI log m - (m-1) log 2 / m equals the integral defining I(X;Y); it is non-negative for m >= 1.", "quantifier": "all m", "why_tests_cant": "All m.", "anchors": ["src/bmi/samplers/_discrete_continuous.py: DiscreteUniformMixtureSampler"]}
{"id": "C36", "title": "Zero-inflated Poissonization", "statement": "ZeroInflatedPoissonizationSampler rejects p outside [0,1); the reported value is (1-p) times a bracket which decreases in the truncation and converges, and the default constant 0.3012 is the limit correctly rounded to four decimals. Samples are n paired rows, y being 0 where the Bernoulli draw fails and the Poisson draw otherwise. Two defects: the constructor leaves dim_x, dim_y and dim_total raising AttributeError, and for p>0 the reported (1-p)*c cannot be the true I(X;Y) when the value for p=0 is (an observed zero is ambiguous).", "quantifier": "all p, truncations", "why_tests_cant": "All reals / naturals.", "anchors": ["src/bmi/samplers/_discrete_continuous.py: ZeroInflatedPoissonizationSampler"]}
{"id": "C37", "title": "Gaussian MI formula", "statement": "SplitMultinormal accepts a symmetric covariance exactly when it is positive definite, and then reports 1/2 log(det Sxx det Syy / det S) for every split: the clamp at 0 is inactive (Fischer's inequality). The value is 0 exactly when the cross-covariance vanishes, does not depend on the mean, and is the expectation of the log-density ratio. For accepted asymmetric matrices with positive determinants the same expression is clamped at 0. The entropies it is built from are the expectations of minus the log-densities.", "quantifier": "all dimensions, covariance matrices and means", "why_tests_cant": "All matrices of all sizes.", "anchors": ["src/bmi/samplers/_splitmultinormal.py: SplitMultinormal"]}
{"id": "C38", "title": "Gaussian MI invariances", "statement": "The MI of SplitMultinormal is unchanged by exchanging X and Y blocks, by invertible linear maps of X and of Y, and is zero when the cross-covariance vanishes.", "quantifier": "all covariance matrices, invertible maps", "why_tests_cant": "All matrices.", "anchors": ["src/bmi/samplers/_splitmultinormal.py: SplitMultinormal.mutual_information"]}
{"id": "C39", "title": "Bivariate normal", "statement": "BivariateNormalSampler's MI equals -1/2 log(1-rho^2), for every standard deviations, and agrees with SplitMultinormal on its covariance; invalid correlation or std rejected.", "quantifier": "all rho in (-1,1), positive std", "why_tests_cant": "All reals.", "anchors": ["src/bmi/samplers/_splitmultinormal.py: BivariateNormalSampler"]}
{"id": "C40", "title": "Covariance validation", "statement": "_can_be_covariance accepts a symmetric matrix exactly when it is positive definite, and the constructor rejects wrong shapes, dimensions and mean lengths with ValueError. It is meant to reject asymmetric matrices too, but its symmetry check never fires: asymmetric matrices with positive eigenvalues are accepted (refuted).", "quantifier": "all matrices", "why_tests_cant": "All matrices.", "anchors": ["src/bmi/samplers/_splitmultinormal.py: _can_be_covariance"]}
{"id": "C41", "title": "Canonical correlation covariance", "statement": "canonical_correlation(rho) is symmetric with unit diagonal; a normal with it has MI equal to sum of -1/2 log(1-rho_i^2) for |rho_i|<1, all lengths and additional_y.", "quantifier": "all lists of correlations", "why_tests_cant": "Lists are unbounded.", "anchors": ["src/bmi/samplers/_matrix_utils.py: canonical_correlation"]}
{"id": "C42", "title": "Student-t MI", "statement": "SplitStudentT's MI equals the Gaussian MI with the same dispersion plus a closed-form correction which depends only on df and dims; it is the expectation of the Student log-density ratio. df <= 0 is rejected. covariance is dispersion*df/(df-2), only for df>2. The documented df=inf gives NaN, and sampling one point fails (refuted). Its standard entropies are the expectations of minus the standard Student log-density, and sampling draws with the constructor's mean, dispersion and df.", "quantifier": "all dispersions, df, dims", "why_tests_cant": "All reals.", "anchors": ["src/bmi/samplers/_split_student_t.py: SplitStudentT"]}
{"id": "C43", "title": "LVM covariance matches mixing", "statement": "GaussianLVMParametrization.covariance equals mixing @ mixing.T for every parameter choice; it is symmetric and positive semidefinite; mixing has n_latent columns, and there is one latent label per column and one row label per row, in the order X1, X2, ..., Y1, Y2, ....", "quantifier": "all dims, n_interacting, coefficients", "why_tests_cant": "Index arithmetic over all dims.", "anchors": ["src/bmi/samplers/_matrix_utils.py: GaussianLVMParametrization"]}
{"id": "C44", "title": "LVM correlation strengths", "statement": "correlation has unit diagonal; Dense gives every off-diagonal entry correlation_strength; Sparse gives correlation_interacting for interacting pairs.", "quantifier": "all dims and coefficients", "why_tests_cant": "All reals.", "anchors": ["src/bmi/samplers/_matrix_utils.py: DenseLVMParametrization", "src/bmi/samplers/_matrix_utils.py: SparseLVMParametrization"]}
{"id": "C45", "title": "Parametrised correlation matrix entries", "statement": "parametrised_correlation_matrix has unit diagonal, is symmetric, with the documented entry in every block, and rejects parameters outside documented ranges.", "quantifier": "all dims, k and correlations", "why_tests_cant": "All dims.", "anchors": ["src/bmi/samplers/_matrix_utils.py: parametrised_correlation_matrix"]}
{"id": "C46", "title": "PMI is invariant under diffeomorphisms", "statement": "For transform(dist, f, g): pmi at (f(x), g(y)) equals the pmi of dist at (x, y); dims and analytic_mi are kept; sampling gives the transformed samples; the pmi profile and the MC estimates with the same key are identical.", "quantifier": "all distributions, bijectors, points, keys", "why_tests_cant": "All functions.", "anchors": ["src/bmi/samplers/_tfp/_core.py: transform", "src/bmi/samplers/_tfp/_core.py: JointDistribution.pmi"]}
{"id": "C47", "title": "Mixtures of BMMs", "statement": "mixture raises ValueError exactly when there are no components, the lengths differ or the dims are not all equal; its joint and marginal densities are the weighted sums of component densities divided by the total weight; hence marginals of the mixture are the mixture of marginals; PMI of a mixture of identical components equals component PMI; invariant under reordering of components. The weights are not validated: they are normalised, and negative ones give NaN densities (refuted).", "quantifier": "all lists of components and weights", "why_tests_cant": "Lists are unbounded.", "anchors": ["src/bmi/samplers/_tfp/_core.py: mixture"]}
{"id": "C48", "title": "Product distributions have zero PMI", "statement": "ProductDistribution has PMI 0 wherever both marginal densities are positive, analytic_mi 0 and MC estimate 0 with standard error 0 for any key drawing points there. PMI is not identically 0: outside the support it is NaN (refuted).", "quantifier": "all marginals and points", "why_tests_cant": "All functions.", "anchors": ["src/bmi/samplers/_tfp/_product.py: ProductDistribution"]}
{"id": "C49", "title": "Monte Carlo estimate", "statement": "monte_carlo_mi_estimate returns the mean of the PMI profile drawn with the same key and the standard error std/sqrt(n) >= 0; n < 1 raises ValueError.", "quantifier": "all distributions, keys, n", "why_tests_cant": "All functions.", "anchors": ["src/bmi/samplers/_tfp/_core.py: monte_carlo_mi_estimate", "src/bmi/samplers/_tfp/_core.py: pmi_profile"]}
{"id": "C50", "title": "BMMSampler caches its MI", "statement": "An MI given to the constructor is returned as is; otherwise the MC estimate is computed with the seed given to the constructor and the same value is returned by every call, regardless of interleaved sampling; the standard error is available after the first call. The analytic_mi of the distribution is not used (refuted).", "quantifier": "all histories of calls", "why_tests_cant": "Histories are unbounded.", "anchors": ["src/bmi/samplers/_tfp/_wrapper.py: BMMSampler"]}
{"id": "C51", "title": "invert_mono inverts", "statement": "For every function and target, and for every rounding of the midpoint, invert_mono keeps a bracket of the target: the final interval lies in [x_min, x_max], its ends are either the original ends or on the right sides of the target, and the loop stops only when the interval is no longer than delta or the midpoint is no longer strictly inside. It terminates for delta > 0 with exact midpoints, and always when midpoints come from finitely many numbers. For a strictly increasing function and a target f(r) with r in the interval the result is within delta/2 of r (in particular for normal_cdf); targets below or above the range give the corresponding end up to delta/2; the inverse is non-decreasing.", "quantifier": "all monotone functions, targets, brackets, delta>0", "why_tests_cant": "All functions.", "anchors": ["src/bmi/transforms/_invert_cdf.py: invert_mono"]}
{"id": "C52", "title": "Generators of so(n)", "statement": "so_generator(n,i,j) is skew-symmetric with exactly two non-zero entries and is accepted exactly when 0<=i<j<n; skew_symmetrize gives the skew part and is idempotent.", "quantifier": "all n,i,j; all matrices", "why_tests_cant": "All n.", "anchors": ["src/bmi/transforms/_rotate.py: so_generator", "src/bmi/transforms/_rotate.py: skew_symmetrize"]}
{"id": "C53", "title": "Spirals preserve norm and are injective", "statement": "A Spiral with generator A, initial matrix M and the given speed maps x to M exp(speed |x|^2 A) x. If A is skew-symmetric the exponential is orthogonal, so without initial matrix the norm is kept and the rotation depends on the norm only; with an invertible (or no) initial matrix the spiral is a bijection. The documented plane example holds. Shapes which do not match raise ValueError. Generators which are not skew-symmetric are accepted and can give maps which are not injective (refuted). The fixed rotations of transform_rotate_task are exponentials of the stated generators, keep norms and are bijections.", "quantifier": "all dimensions, generators, initial matrices, speeds, points", "why_tests_cant": "The test for it is skipped in the repository; all matrices and points.", "anchors": ["src/bmi/transforms/_rotate.py: Spiral", "src/bmi/benchmark/tasks/rotate.py: transform_rotate_task"]}
{"id": "C54", "title": "Coordinate transforms are injective", "statement": "half_cube, the two wiggly maps and arcsinh are strictly increasing bijections of the reals; the signed power map is one for alpha > 0 (for alpha = 0 it is not injective and for alpha < 0 it gives NaN at 0: refuted); the Swiss roll is injective for arguments >= -1/2, with the stated radius; normal_cdf is strictly increasing with values in (0, 1), is symmetric and has the standard normal density as derivative.", "quantifier": "all real points", "why_tests_cant": "All reals.", "anchors": ["src/bmi/transforms/simple.py", "src/bmi/benchmark/tasks/wiggly.py", "src/bmi/benchmark/tasks/power.py", "src/bmi/benchmark/tasks/asinh.py"]}
{"id": "C55", "title": "run_estimator never raises on estimator failure and reports faithfully", "statement": "run_estimator returns a RunResult whenever the sample file is readable and the estimator returns or raises an Exception: success is true, with the estimator's value and its reported (else measured) time, iff the estimator returned; otherwise success is false, estimate and time are NaN and the error (and subprocess output) is recorded. Ids, seed and sample size are copied. Only an unreadable sample or a non-Exception escapes.", "quantifier": "all estimators and samples", "why_tests_cant": "All estimator behaviours.", "anchors": ["src/bmi/benchmark/result.py: run_estimator"]}
{"id": "C56", "title": "Results of different runs do not share state", "statement": "In any sequence of runs which get pairwise different dictionaries (or none), the additional information of each result is at the end the dictionary passed, updated by that run alone; runs leave other dictionaries alone. Passing the same non-empty dictionary to two runs changes the earlier result and keeps a stale error in a successful one (refuted).", "quantifier": "all histories of run_estimator calls", "why_tests_cant": "Aliasing depends on histories.", "anchors": ["src/bmi/benchmark/result.py: run_estimator"]}
{"id": "C57", "title": "Task metadata", "statement": "Task.metadata reports the sampler's dims and MI, the id, name and the content of params (it is the same dictionary, not a copy: refuted); it fails when the MI is negative or NaN; all properties are read off it; sampling through a task equals sampling the sampler with the seed, and a saved sample reads back unchanged.", "quantifier": "all samplers and params", "why_tests_cant": "All samplers.", "anchors": ["src/bmi/benchmark/task.py: Task"]}
{"id": "C58", "title": "Transformed tasks keep MI and extend ids", "statement": "Each transform_*_task (asinh, half-cube, normal CDF, wiggly, Swiss roll, rotation, spiral, power, rescale, uniformise, gaussianise) turns a usable task into a usable task with the same MI, prefixed id, given or prefixed name, same dims (Swiss roll: one more X coordinate), the base parameters updated with the documented new ones, and samples mapped as documented; every existing dictionary is left untouched; unsuitable dims and unreadable base tasks are rejected. Refuted: the parameters are a copy (most transforms share the base task's dictionary object).", "quantifier": "all base tasks, names, speeds, powers and heaps", "why_tests_cant": "All tasks.", "anchors": ["src/bmi/benchmark/tasks"]}
{"id": "C59", "title": "Benchmark task ids are distinct", "statement": "The published task list can be built, its 40 ids are the published ones and pairwise distinct, so the dictionary has one entry per task and every task is usable at the end; in general a list with distinct ids loses nothing and otherwise the last task with an id wins; two spirals of one task with different speeds collide.", "quantifier": "all float printers agreeing with Python on four literals, all random, special-function and matrix oracles meeting their specification, all heaps; every list of tasks", "why_tests_cant": "Ids are computed; a collision silently drops tasks.", "anchors": ["src/bmi/benchmark/task_list.py", "src/bmi/benchmark/__init__.py"]}
{"id": "C60", "title": "Dumped dictionaries are plain", "statement": "DictDumper represents nested data with numpy scalars/arrays, paths, enums, tuples as plain YAML data, equal to converting them recursively and using the stock dumper, and fails only on values of unknown types; refuted for an Enum whose value is itself a path or a NumPy value. The file of a run has the eight fields of the run under their names, in alphabetical order.", "quantifier": "all nested values", "why_tests_cant": "Nesting is unbounded.", "anchors": ["src/bmi/benchmark/utils/dict_dumper.py"]}
{"id": "C61", "title": "Timer", "statement": "Timer values are the reading taken minus the last reading stored by a reset; for a monotone clock they are non-negative and checks between resets never decrease; laps of check_and_reset plus the gaps between its two readings add up to the total time, so laps never exceed it (laps alone adding up to it is refuted).", "quantifier": "all clock histories", "why_tests_cant": "All histories.", "anchors": ["src/bmi/benchmark/utils/timer.py"]}
{"id": "C62", "title": "External estimators", "statement": "estimate() of the R and Julia estimators writes exactly the arrays given to a temporary file (deleted afterwards), runs the script with arguments which make it call its library with these arrays and the constructor's parameters, and returns the number printed; a number is returned iff the exit code is 0 and everything written (both streams) is that number up to white space; failures raise and run_estimator records them with the output. Refuted: standard output alone being a number is not enough. A success is recorded with the number printed, the time measured by run_estimator and no additional information.", "quantifier": "all parameters, arrays, files, outputs, exit codes", "why_tests_cant": "Needs R and Julia installed; quantifies over all outputs and all parameter values passed as strings through two argument parsers.", "anchors": ["src/bmi/estimators/external/external_estimator.py", "src/bmi/estimators/external/r_estimators.py", "src/bmi/estimators/external/julia_estimators.py", "external/rmi.R", "external/mi_estimator.jl"]}
{"id": "C63", "title": "BNSL proc parameter", "statement": "RBNSLEstimator accepts proc iff proc >= 1, rmi.R iff proc is 0, 1, 2 or 10; for 1, 2, 10 the library gets proc and both arrays, for every other accepted value the script stops. Refuted: every documented value is accepted (0 is rejected by Python), and both validations agree. Called with no column for X, the script takes the first column instead of stopping (1:0 counts down in R).", "quantifier": "all integers, arrays", "why_tests_cant": "Two validation rules in two languages must agree on all integers.", "anchors": ["src/bmi/estimators/external/r_estimators.py: RBNSLEstimator", "external/rmi.R"]}
{"id": "C64", "title": "The Gaussian mixture estimator averages the mutual information of distinct posterior draws, each with its own key", "statement": "A successful GMMEstimator.estimate is the mean of the Monte Carlo mutual information of distinct posterior draws, each the mean of the pointwise mutual information of points drawn from the mixture: the first split of the estimator's key runs MCMC, the second chooses the draws, and the i-th integral uses the split after that. After any calls the key has been split a number of times independent of the data, so histories with equally many splits give the same next estimate; a repeated estimate may differ. alpha is ignored. The mixture built from a draw has symmetric positive definite covariances, the dimensions of the data, and the weighted normal densities; before MCMC, or when MCMC fails, the errors are as documented and the old posterior stays.", "quantifier": "all data, parameters, call histories, random number generators, MCMC results and linear algebra routines meeting their contracts", "why_tests_cant": "Histories, draws and dimensions are unbounded, and the randomness of MCMC cannot be enumerated.", "anchors": ["src/bmi/estimators/external/gmm.py"]}
{"id": "C65", "title": "Tables of benchmark results", "statement": "create_benchmark_table succeeds unless a counted row has the estimator name 'True MI' (then ValueError); its rows are all tasks and its columns the counted estimators plus 'True MI', sorted and without repetitions; a cell is the mean over all counted rows of the pair (NaN if there are none), 'True MI' is mi_true of the first row of the task. n_samples has no effect: it is false that the table is restricted to that sample size, or by default to the largest. A run counts as converged iff its estimate exceeds a tenth of the largest of its estimator, task and sample size; the best seed converges if positive, and no seed does if none is positive. create_convergence_table never fails and its cells are the fractions of converged rows. read_results gives each row the entries of its unpacked dictionaries, which replace columns of the same name. The relative error is the binary logarithm of estimate / truth: an estimate of 2^l times a positive truth has error l, zero -inf, a negative one NaN.", "quantifier": "all result frames (any numbers, also infinities and NaN), all sample sizes, all YAML readers", "why_tests_cant": "The frames are unbounded; the restriction to n_samples looks right on data with one sample size.", "anchors": ["workflows/benchmark/_utils.py: create_benchmark_table"]}
{"id": "C66", "title": "Bisection over correlations and tasks of prescribed mutual information", "statement": "A point returned by binsearch has a value within delta of the target (unless the target is near -1e9, the initial value: refuted there), lies in the range, and only errors other than ValueError come through; for a nondecreasing function which does not raise it succeeds once max_iter exceeds the number of halvings needed (refuted when the function raises at one point). mi_sparse_gaussian is -ln(1-c^2); for every dim >= 2 and 0 <= mi <= 3000 generate_sparse_gaussian_task finds a task whose mutual information is within 1e-4 of mi and whose parameters record it; negative mi or dim < 2 give None; the half-cube and spiral tasks keep that mutual information. While the function raises ValueError the points tried are successive draws, and the first good one is returned.", "quantifier": "all functions incl. raising ones, all targets, draws, dimensions, families, eigenvalue oracles positive on positive definite matrices", "why_tests_cant": "All functions, targets and random draws; exact reals.", "anchors": ["workflows/projects/Beyond_Normal/_high_mi_utils.py: binsearch, mi_sparse_gaussian, generate_sparse_gaussian_task, generate_spiral_task, generate_half_cube_task"]}
{"id": "C67", "title": "Samples needed", "statement": "n_samples_needed returns the smallest sample size from which on every |log relative error| is below log 1.5 (NaN errors count as failures), infinity if there is a failure at the largest size, NaN for no rows; it is false that it returns the smallest size with a small error. The figure shows, for every known estimator and task with surviving runs, this size for the curve of means over the seeds which did not fail; the only possible exception is a KeyError for an estimator without a name. Cells are annotated by the number, by thousands with a k, by >max or by nothing; colours are clipped to the scale.", "quantifier": "all result frames, all dictionaries of estimators, tasks and names", "why_tests_cant": "All frames, including NaN and infinite errors, repeated sizes and any order.", "anchors": ["workflows/projects/Beyond_Normal/_common_figure_utils.py: n_samples_needed, n_samples_annotator, plot_benchmark_n_samples"]}
{"id": "C68", "title": "Axis grid sizes", "statement": "subplots_from_axsize succeeds exactly when the sizes, counts and paddings fit together; the figure size is the sum of axis sizes, paddings and margins; each axes gets exactly its requested physical size and position, inside the figure and without overlap; all axes are returned, in the documented shape, except that squeeze=False returns a single axes bare (refuted).", "quantifier": "all axis sizes, paddings, margins", "why_tests_cant": "All reals and counts.", "anchors": ["src/bmi/plot_utils/subplots_from_axsize.py"]}
{"id": "C69", "title": "KSG ignores translations and common rescaling", "statement": "Without standardization, translating x or y, or rescaling x and y by one common positive factor, leaves KSG predictions unchanged.", "quantifier": "all data sets, translations, factors", "why_tests_cant": "All reals.", "anchors": ["src/bmi/estimators/ksg.py: KSGEnsembleFirstEstimator.fit"]}
{"id": "C70", "title": "Seeds are interpreted deterministically", "statement": "cast_to_rng maps an int to the key of that seed and leaves keys alone, so sample(n, seed) = sample(n, PRNGKey(seed)).", "quantifier": "all seeds and keys", "why_tests_cant": "All values.", "anchors": ["src/bmi/samplers/base.py: cast_to_rng"]}
{"id": "C71", "title": "add_noise", "statement": "add_noise returns an array of the same shape in which every entry is the sum of the original entry and the noise drawn with the given seed and scale.", "quantifier": "all arrays, scales, seeds", "why_tests_cant": "Arrays are unbounded and real-valued.", "anchors": ["src/bmi/utils.py: add_noise"]}
{"id": "C72", "title": "Tables behind the benchmark figures", "statement": "A run of a neural estimator failed iff its estimate is negative or below a tenth of the largest over its seeds. make_benchmark_table shows exactly the known tasks and estimators with values, in the order of the dictionaries and under their names, with NaN for missing pairs; it fails exactly for repeated pairs (ValueError) or a missing estimator name (KeyError). The figure of estimates shows means at the largest size over the seeds which did not fail and exists iff moreover every task has a surviving run (else ValueError; so it is false that names suffice). The figure of failures counts failed seeds of neural estimators. scale_tasks keeps keys, ids, names, dimensions, parameters and mutual information.", "quantifier": "all result frames, all dictionaries of estimators, tasks and names, all heaps", "why_tests_cant": "The frames and dictionaries are unbounded, and the failing combinations (a task without runs, a name missing) are rare.", "anchors": ["workflows/projects/Beyond_Normal/_common_figure_utils.py: read_results, scale_tasks, preprocess_benchmark_results, make_benchmark_table, plot_benchmark_mi_estimate, plot_benchmark_neural_fails"]}
{"id": "C73", "title": "Normal and Student distributions of the Bend and Mix Models", "statement": "For a symmetric positive definite covariance (dispersion) of the right shape, MultivariateNormalDistribution and MultivariateStudentDistribution have, as log_prob of the pair and of its two halves, exactly the normal (Student) log-densities with the given mean (zero by default) and covariance and with the corresponding sub-blocks, and draw with that location and a lower triangular factor of that covariance; analytic_mi is the expectation of the distribution's own pointwise mutual information; moving the mean only moves the arguments; everything else raises ValueError. An asymmetric covariance is accepted, and then analytic_mi is not that of the densities.", "quantifier": "all dimensions, means, covariances, degrees of freedom, points and expectation operators with the given moments", "why_tests_cant": "Tests compare a few sampled points for a few matrices; the identity of the factorised density with the density of the inverse matrix, and the agreement of the closed-form MI with the expectation, is needed for every dimension and matrix.", "anchors": ["src/bmi/samplers/_tfp/_normal.py:14-76", "src/bmi/samplers/_tfp/_student.py:14-100"]}
{"id": "C74", "title": "Tasks built from mixtures describe the distributions they claim", "statement": "task_x, task_ai, task_galaxy, task_waves, task_concentric_multinormal and task_multinormal_sparse_w_inliers have the identifiers, names and parameters of their arguments, and sample from the announced mixtures: joint and marginal densities are the averages of the announced normal densities (with inliers: the normal density mixed with the product of its marginals), X moved by the swirl (Galaxy) or ripple (Waves), both bijections of the plane. Mutual information is the Monte Carlo estimate with mi_estimate_sample points and the key of seed 0. pmi of X has a closed form; with inliers exp(pmi) is mixed with 1 and the integrand of the mutual information is at most (1 - f) times that without. Arguments outside the domain raise AssertionError (number of components, fraction) or ValueError. Metadata are not always available: a negative estimate raises ValidationError (refuted).", "quantifier": "all correlations, dimensions, numbers of components, speeds, amplitudes, fractions, numbers of points, random draws and linear algebra routines meeting their contracts", "why_tests_cant": "Tests build a few tasks and check that sampling works; that the densities are the announced ones holds at every point for every parameter.", "anchors": ["src/bmi/benchmark/tasks/mixtures.py:12-269"]}
{"id": "C75", "title": "The basic benchmark tasks are the distributions they announce", "statement": "task_additive_noise, task_bivariate_normal, task_bimodal_gaussians, the multinormal tasks (LVM, sparse, 2-pair, dense) and the Student tasks (identity, dense, sparse, 2-pair) succeed for arguments in their domain and give a task with the announced identifier, name, dimensions and parameters, which samples from the announced distribution (normal or Student pairs with the announced correlation matrix; uniform pairs with additive noise; the Gaussian copula with bimodal marginals), and reports the closed-form mutual information of that distribution. Arguments outside the domain (noise not positive, correlations making the matrix indefinite, too many interacting pairs) raise ValueError.", "quantifier": "all noise levels, correlations, dimensions, numbers of pairs, strengths, degrees of freedom, names, dictionaries in memory, random draws and eigenvalue routines meeting their contract", "why_tests_cant": "Tests build the tasks with a few parameters; the closed forms of the mutual information and the correlation matrix hold for all dimensions and strengths.", "anchors": ["src/bmi/benchmark/tasks/additive_noise.py:1-17", "src/bmi/benchmark/tasks/bivariate_normal.py:1-17", "src/bmi/benchmark/tasks/bimodal_gaussians.py:1-31", "src/bmi/benchmark/tasks/multinormal.py:1-119", "src/bmi/benchmark/tasks/student.py:1-115"]}
{"id": "C76", "title": "Reported parameters determine the estimates", "statement": "The parameters() of the KDE estimator are the settings in use with defaults filled in. Two KDE, KSG (same or different chunk sizes and implementations, distinct neighborhoods), variational (any class and training backend) or MINE estimators which report equal parameters give equal estimates, whatever constructor arguments they came from and whatever they were used for before. The CCA estimator loses its scale argument. A function wrapped in FunctionalEstimator is run with the default estimate_with_info: its value is reported with the measured time, nothing is added to the information, exceptions are reported as failures.", "quantifier": "all constructor arguments, histories of calls, samples, random generators, optimisers and critics", "why_tests_cant": "Pairs of configurations and arbitrary histories of calls are unbounded.", "anchors": ["src/bmi/estimators/_kde.py:59-117", "src/bmi/estimators/ksg.py:146-147,244-245", "src/bmi/estimators/neural/_estimators.py:101-114,179-307", "src/bmi/estimators/neural/_mine_estimator.py:283-317", "src/bmi/estimators/correlation.py:16-31", "src/bmi/estimators/function_wrapper.py:9-39", "src/bmi/interface.py:57-59"]}
{"id": "C77", "title": "The workflow makes one truthful row for each run", "statement": "The wildcards Snakemake finds in a path give that path back. Paths of samples and results are taken apart into the estimator, task, number of points and seed they were made from (for task ids without a slash and seeds which are not negative), so different runs have different files. Whatever jobs ran in whatever order, if results.csv is made its rows are, one per estimator, task, number of points and seed in this order, the outcome of that estimator on the sample drawn from that task with that size and seed, with the true mutual information, name and parameters of that task. Drawing each sample and then running each estimator leads to such a table. With a negative seed the table is never made; a task id with a slash is looked up as a different estimator.", "quantifier": "all configurations (estimators, tasks, sizes, seeds), all orders of jobs, all number formats", "why_tests_cant": "The rules run only inside Snakemake with expensive estimators; mismatches between file names and contents appear only for particular names, seeds and orders of jobs.", "anchors": ["workflows/benchmark/_common_benchmark_rules.smk:11-13", "workflows/benchmark/_common_benchmark_rules.smk:32-52", "workflows/benchmark/_common_benchmark_rules.smk:56-63", "workflows/benchmark/_common_benchmark_rules.smk:67-86"]}
{"id": "C78", "title": "The sparsity tasks have the prescribed mutual information", "statement": "Let coupling(v) = 1/2 ln((1+v)^2/(1+2v)). The latent variable task with dim variables on either side, all pairs interacting, has mutual information (dim-1) coupling(lambda^2) + coupling(lambda^2 + dim alpha^2), which is that of its normal distribution. get_initial_alpha returns an alpha between 0 and 10 whose task (no interacting pairs) is within 1e-4 of the requested mutual information whenever that can be reached, and fails an assertion otherwise. get_lambda_task and get_n_interacting_task make, for each mutual information which can be reached with a lambda between 0 and 10, the task with the given alpha or number of interacting pairs and mutual information within 1e-4 of the requested one, with the metadata of exactly this task; otherwise an assertion fails, and with an invalid number of pairs they raise a ValueError.", "quantifier": "all dimensions up to 10^1000, all alphas, numbers of interacting pairs and requested values, all restarts of the search", "why_tests_cant": "The search is randomised and covers a continuum of requested values and dimensions; the closed form needs the determinant of the covariance in every dimension.", "anchors": ["workflows/projects/Beyond_Normal/_sparsity_utils.py:8-23", "workflows/projects/Beyond_Normal/_sparsity_utils.py:26-40", "workflows/projects/Beyond_Normal/_sparsity_utils.py:43-57", "workflows/projects/Beyond_Normal/_high_mi_utils.py:15-57"]}
{"id": "C79", "title": "The distributions of the mixtures paper are the intended ones", "statement": "Any mixture of pairs of independent normal variables, with any positive proportions adding to one, is built with exactly the joint and marginal densities of that mixture, and its pointwise mutual information is finite everywhere and equal to the logarithm of the ratio of densities. The four balls, the U shape and the four corners are the listed mixtures; the four corners have independent X and Y (pointwise mutual information zero everywhere). create_x/galaxy/ai/waves_distribution return the listed normal mixtures together with samplers which draw from them, with X moved by a bijection of the plane in galaxy and waves; X has a closed form of its pointwise mutual information. Without points for the estimate a ValueError is raised, without components an AssertionError.", "quantifier": "all proportions, means and variances, all points, numbers of components and sample sizes, all random generators", "why_tests_cant": "Densities must agree at every point of the plane, for every list of components; tests sample a few points of a few plots.", "anchors": ["workflows/projects/Mixtures/example_distributions.py:27-152", "workflows/projects/Mixtures/how_good_integration_is.smk:68-91", "workflows/projects/Mixtures/visualizing_critics.py:67-95", "workflows/projects/Mixtures/distinct_profiles.smk:79-103", "workflows/projects/Mixtures/pmi_plot_1v1.smk:20-40"]}
{"id": "C80", "title": "Grids of densities, profiles and critics show every value at its point, and removing degrees of freedom keeps exactly what the objective sees", "statement": "make_grid and its three users return the table of values at the equally spaced points of X (first axis) and Y; plot_grid and plot_pmi draw every value in the cell containing its point. remove_dv_dofs identifies exactly the arrays differing by a constant and remove_nce_dofs those differing by a function of x; critics identified on a grid have the same Donsker-Varadhan (InfoNCE) value on every batch of grid points. The rules distinct_profiles and pmi_plot_1v1 call sample(key, n) instead of sample(n, key) and raise ValueError for every distribution.", "quantifier": "all joint distributions, critics, ranges, numbers of grid points and batches of grid points", "why_tests_cant": "A transposed picture or a swapped mean axis only shows up for asymmetric functions and ranges, and invariance has to hold for every critic and batch.", "anchors": ["workflows/projects/Mixtures/visualizing_critics.py:107-161", "workflows/projects/Mixtures/pmi_plot_1v1.smk:49-92", "workflows/projects/Mixtures/distinct_profiles.smk:39-50", "workflows/projects/Mixtures/distinct_profiles.smk:105-112"]}
{"id": "C81", "title": "How the estimators of the integration experiment react to a biased pointwise mutual information", "statement": "Adding a constant c to the pointwise mutual information shifts the Monte Carlo average by c, leaves Donsker-Varadhan and InfoNCE unchanged and turns the shifted NWJ into mean + c + 1 - e^c mean_exp; adding a function of x bounded by B shifts Monte Carlo by its mean, leaves InfoNCE unchanged and keeps Donsker-Varadhan within B of the shifted value. Shifted NWJ is at most Donsker-Varadhan, with equality iff the mean exponential is one. The ground truth is the mean with the sample standard deviation over seeds.", "quantifier": "all critics, biases, batches of at least two paired points and lists of estimates", "why_tests_cant": "The statements are identities and bounds over all real-valued functions and batches.", "anchors": ["workflows/projects/Mixtures/how_good_integration_is.smk:24-32", "workflows/projects/Mixtures/how_good_integration_is.smk:99-106", "workflows/projects/Mixtures/how_good_integration_is.smk:174-196"]}
{"id": "C82", "title": "The configurations of the benchmark workflows load the intended tasks", "statement": "The lists of tasks of the demo, of both versions of the benchmark and of the model-based benchmark can be built; identifier, name and dimensions of every task are those of the written catalogue (2, 39, 26, 16 entries). The demo and the first version always load, giving one standardized task per identifier with the same metadata and mutual information; the second version and the model-based one load exactly if no Monte Carlo estimate of the mutual information (13 tasks) is negative or NaN, otherwise ValidationError is raised. Identifiers are distinct and usable in paths, so the 8, 3510, 1560 and 48 runs have files of their own; the first version is the published list without one task; each task has one display name and different tasks different ones; task names alone do not identify the tasks of the second version.", "quantifier": "all heaps and all behaviours of the external libraries meeting the recorded assumptions; the configurations are fixed", "why_tests_cant": "Loading depends on random estimates made at import time; a test sees one draw. Missing, duplicated or misnamed tasks show only as silently overwritten dictionary entries or files.", "anchors": ["workflows/benchmark/demo/config.py:15-53", "workflows/benchmark/v1/config.py:24-124", "workflows/benchmark/v2/config.py:21-98", "workflows/projects/Mixtures/gmm_benchmark.smk:21-80", "workflows/benchmark/_common_benchmark_rules.smk:11-13"]}
{"id": "C83", "title": "Summaries of posteriors and the table of the model-based benchmark", "statement": "The summary of a posterior has the 10% and 90% quantiles (linear interpolation in the arranged values) and the mean of its finite values and the numbers of filtered and used values; quantiles lie between the extremes, grow with q, ignore the order, and bound the intended share of values. Whatever jobs ran in whatever order, the collected results have one row per estimator, task, sample size and seed, with the summary of the posterior given for the sample of that task and seed. The table has one row per task in order of appearance with name, true mutual information and, in the column of each run, the text of its last record; it exists iff there are records and all tasks have names. With the seeds 0, 1, 2 and one estimator every column is that run's summary; with two estimators results get lost.", "quantifier": "all posteriors, quantile levels, configurations with usable names, schedules, oracles, lists of rows and name tables", "why_tests_cant": "Holds for every posterior including NaN and infinite values, every order of jobs and every set of tasks; a test sees a few.", "anchors": ["workflows/projects/Mixtures/gmm_benchmark.smk:88-215"]}
{"id": "C84", "title": "Where the figure comparing Bayesian mixtures with other estimators draws its points", "statement": "Points of an estimator are equally spaced in its strip, moved inwards by the margin, the tick in the middle; they stay in the strip iff the margin is less than the width of a strip. A panel shows for every run the interval between the quantiles and the mean at one height, for each other estimator its estimates for the task and sample size, and the true value; it is drawn iff the task is in the other benchmark and every mean is between its quantiles. The mean of up to ten values always is; for every larger number there is a posterior whose mean is outside, so the figure cannot be drawn. All tasks, estimators and the sample size of the figure occur in the benchmarks with these names.", "quantifier": "all lists of estimators, margins, numbers of points, tables of results; every number of posterior draws above ten for the counterexample", "why_tests_cant": "The heights are claimed for every number of points and every list; the failing posteriors are rare in practice and appear for every number of draws.", "anchors": ["workflows/projects/Mixtures/figure_bmm_vs_other.smk:21-150"]}
{"id": "C85", "title": "The printed table of the second version of the benchmark", "statement": "A table is made unless there are no results or an estimator is called \"True MI\". Its rows are the tasks and its columns the estimators and \"True MI\", sorted. A cell shows the mean of all estimates for the task and their sample standard deviation (NaN skipped), rounded up to hundredths and at least 0.01; the column \"True MI\" shows the value in the task's first row. The argument n_samples has no effect: results of other sizes are averaged too, so a cell need not describe the runs with the requested size. Tasks are replaced by their names, all of which must be known. For complete results of 5000 samples there is exactly one row for each of the 26 names with the summaries of its task.", "quantifier": "all lists of results, sample sizes, name tables and formatting functions", "why_tests_cant": "The selection by size is overwritten one line later, which is invisible while all results have the same size; the claim is about every list of results, with missing runs, NaN and infinite estimates.", "anchors": ["workflows/projects/Mixtures/v2_results_table.smk:6-148"]}
{"id": "C86", "title": "The mixture with a continuous X and a binary Y", "statement": "The distribution of the figure is built with dimensions 2 and 1 and no analytic mutual information. Its log-probabilities are those of a mixture, in proportions 1/4, 1/2, 1/4, of two planar Student clouds (8 and 5 degrees of freedom) and a planar normal one with correlation 0.95, each with its own Bernoulli label; both labels have probability 1/2. Its pointwise mutual information is everywhere strictly between ln 0.1 and ln 1.9, hence inside the plotted range; the exponentials for the two labels at a point add up to 2, and a label is informative exactly where its cloud is denser than the opposite one. Whatever labelled points are drawn, they are coloured by label, the profile has the value of each point and the Monte Carlo estimate is within the bounds with standard error at most ln 19 / 1000.", "quantifier": "all points of the plane, labels, keys, ways of drawing, Cholesky factorisations and log-gamma functions", "why_tests_cant": "The bounds hold at every point of the plane and for every draw of a million points; tests check a few seeds.", "anchors": ["workflows/projects/Mixtures/figure_discrete_continuous.smk:25-120"]}
{"id": "C87", "title": "Distributions contaminated with inliers and outliers", "statement": "Mixing a signal with noise at level a, where the noise has the signal's X and an independent Y of density q, yields exactly the joint density (1-a)p + a pX q, leaves the law of X unchanged and gives Y the density (1-a)pY + a q. At every point e^PMI is the average of that of the signal and 1, weighted with the probability that a point with this Y is clean, so noise moves every value towards 0 and never past it; under every linear monotone integral the information is at most (1-a) times that of the signal. Level 0 leaves the signal, level 1 nothing; noise with Y's own law gives ln((1-a)e^v + a). The signal of the experiment has the correlation matrix with 1/501 within X and Y and 400/501 between partners, the product density of its four principal components, and mutual information 1/2 ln(1575025/207009). All setups and variances give the contaminated signal. The noise called inliers does not have the law of Y.", "quantifier": "all levels in [0, 1], densities, points, variances, integrals, Cholesky factorisations and eigenvalue routines", "why_tests_cant": "The bounds hold at every point and every level; a Monte Carlo estimate can only show them approximately for one level and seed.", "anchors": ["workflows/projects/Mixtures/outliers.smk:27-102", "src/bmi/samplers/_tfp/_core.py:70-115", "src/bmi/samplers/_tfp/_product.py:9-41", "src/bmi/samplers/_matrix_utils.py:374-412"]}
{"id": "C88", "title": "Tasks with noise and their ground truth", "statement": "The 39 tasks of outliers.smk have the stated identifiers, parameters and contaminated distributions in order; the dictionary is made exactly if all Monte Carlo estimates are acceptable and a ValidationError is raised otherwise; scaling keeps keys, metadata and mutual information; the mutual information of a mixing task is the ground truth of seed 0; the summaries report the mean of ten (signal: two) estimates, their deviation with divisor n-1 and the mean standard error; other setups raise KeyError.", "quantifier": "all float formats telling the levels and variances apart, all generators, decompositions, heaps, texts of numbers and seeds", "why_tests_cant": "The draws and the printing of numbers are arbitrary, and a run costs millions of samples; tests would see one seed.", "anchors": ["workflows/projects/Mixtures/outliers.smk:71-113", "workflows/projects/Mixtures/outliers.smk:252-347", "workflows/projects/Mixtures/_benchmark_rules.smk:18-28"]}
{"id": "C89", "title": "Figure of the tasks with noise", "statement": "Each panel of outliers_plot.pdf gets exactly the rows of its own tasks; it has one curve per estimator, in that estimator's colour and marker, showing the mean of its estimates at each parameter value from left to right in a band of one standard deviation; the ground truth is drawn from left to right whatever the order of the files and is, for the setups, the mean and deviation of ten Monte Carlo estimates of the signal with that fraction of noise, and for the variances the value the tasks report; an estimator without colour raises KeyError and an unreadable parameter its own exception.", "quantifier": "all result tables, parameter parsers, document orders, generators, decompositions and heaps", "why_tests_cant": "The figure is a PDF nobody compares; tests cannot range over all tables and orders of files.", "anchors": ["workflows/projects/Mixtures/outliers.smk:115-127", "workflows/projects/Mixtures/outliers.smk:164-198", "workflows/projects/Mixtures/outliers.smk:200-233"]}
{"id": "C90", "title": "Workflow asking how good integration is", "statement": "The four setups are made and their critics are the pointwise mutual information of their distributions, for two of them plus a constant half or sin(x\u00b2); every path the workflow asks for is made by exactly one rule, whose wildcards are the parts of the path; in whatever order the rules run, the table of a setup has one row for every number of points, seed and estimator (880 rows) holding what that estimator says, with that setup's critic, about the sample drawn with that number and seed; the ground truth is the mean, deviation and mean standard error of ten Monte Carlo estimates of the distribution; a run in order of the dependencies never fails; adding a function of X to the critic leaves InfoNCE unchanged and moves the plain average by its mean, a constant leaves Donsker\u2013Varadhan unchanged and changes NWJ by c - (e^c - 1) times the mean of the exponentials; the figure has four panels, each with a curve per estimator and the ground truth of its setup; an estimator without colour raises KeyError.", "quantifier": "all setups, generators, draws, decompositions, orders of jobs, tables and names without slash or newline", "why_tests_cant": "Running the workflow needs hours and the figure is a PDF nobody compares; tests cannot range over orders of jobs, names and samples.", "anchors": ["workflows/projects/Mixtures/how_good_integration_is.smk:34-64", "workflows/projects/Mixtures/how_good_integration_is.smk:95-117", "workflows/projects/Mixtures/how_good_integration_is.smk:128-213", "workflows/projects/Mixtures/how_good_integration_is.smk:216-286"]}
{"id": "C91", "title": "Profile of a multivariate normal distribution as a combination of chi-squared variables", "statement": "For canonical correlations rho_i below one in absolute value and any number of further coordinates of Y, the covariance is accepted, and the pointwise mutual information at every point is the mutual information plus the sum of rho_i/2 (a_i^2 - b_i^2), where a_i and b_i are the sum and the difference of the paired coordinates divided by their standard deviations; under any expectation with these second moments the a_i and b_i are uncorrelated with unit variance, and the combination of squares of independent standard normal variables has the mutual information as mean and the sum of rho_i^2 as variance; each panel shows the profile at the drawn points and the combination of the squared normal draws over bins from -2 to 4, the mutual information and one standard deviation on each side; the check of the two formulas raises AssertionError when a correlation is not below one in absolute value; further coordinates of Y change nothing, so the two panels of the lower row differ in the drawn points only.", "quantifier": "all lists of correlations, numbers of further coordinates, points, draws, decompositions and expectations", "why_tests_cant": "The script compares two histograms by eye for four lists of correlations; no test states the identity at a point or for all correlations.", "anchors": ["scripts/Mixtures/validate_chi2_combination.py:12-69", "scripts/Mixtures/validate_chi2_combination.py:72-80", "src/bmi/samplers/_matrix_utils.py:78-108", "src/bmi/samplers/_tfp/_normal.py:32-76"]}
{"id": "C92", "title": "Appearing and vanishing mutual information", "statement": "The two uniform distributions on unit squares have mutual information 0, their equal mixture and the complementary mixture have log 2, and the equal mixture of these two has 0 again (as integrals of the density times the logarithm of its ratio to the product of its marginals, both marginals integrating to one); a density has at most one mutual information; the five pictures hold these densities at 50 by 50 positions, with Y along the rows from the bottom, and their titles hold these numbers; no position is on the line between the squares and the values stay within the limits of the colours.", "quantifier": "all points of the plane and all positions of the grid", "why_tests_cant": "The titles are strings typed by hand; nothing in the script computes an integral.", "anchors": ["scripts/Mixtures/plot_appearing_and_vanishing_mi.py:7-14", "scripts/Mixtures/plot_appearing_and_vanishing_mi.py:17-50"]}
{"id": "C93", "title": "Correction of the mutual information for the Student distribution", "statement": "The correction added to the Gaussian mutual information for a Student distribution is positive, symmetric in the dimensions, strictly decreasing in the degrees of freedom, at most m(m+4)/df (so it vanishes), strictly increasing in both dimensions, additive along two more dimensions, and ln(1+2/df) - 2/(df+2) for two and two dimensions; hence a Student distribution has more mutual information than the normal one with the same matrix, its tasks are always built, and the published list and both versions of the benchmark load without assumption on the correction; the figure has six curves with the labels and colours of the script, each with 29 positive falling values, higher for more dimensions.", "quantifier": "all positive degrees of freedom, dimensions, dispersion matrices and functions satisfying the recurrences and the tangent inequality of log-gamma and digamma (shown to exist)", "why_tests_cant": "The sign and monotonicity for all real degrees of freedom and all dimensions cannot be sampled; the tests compare a few values.", "anchors": ["src/bmi/samplers/_split_student_t.py:157-166", "scripts/Beyond_Normal/figures/student/correction.py:20-21", "scripts/Beyond_Normal/figures/student/correction.py:37-57"]}
{"id": "C94", "title": "Figures of estimates over a parameter, and the figure of the tails", "statement": "plot_mi draws one curve for every estimator in the rows, sorted by identifier, in its colour and with its label: the mean of the estimates at every value of the parameter from left to right, in a band of one standard deviation if asked for, and the mean of the true values of all rows; a parameter which no task has and an estimator without colour raise a KeyError; the assertions on the dictionaries hold and no two estimators share a colour or a label; the twenty tasks of the figure of the tails load under different identifiers; in its figure the line of true values over the exponent is flat at ln(25/9) and over the degrees of freedom it falls strictly and stays above ln(25/9).", "quantifier": "all frames, parameters, estimators and results of the tasks; all eigenvalue, sampling and gamma functions meeting their specification", "why_tests_cant": "Figures are looked at, not tested, and each run covers one table of results.", "anchors": ["workflows/projects/Beyond_Normal/_common_figure_utils.py:18-67", "workflows/projects/Beyond_Normal/_common_figure_utils.py:97-156", "workflows/projects/Beyond_Normal/figure_tails.smk:20-56"]}
{"id": "C95", "title": "The figure of sparsity", "statement": "The search for INITIAL_ALPHA stops at 18865/16384, slightly below the solution; the nineteen tasks of the figure of sparsity (ten interacting pairs and ten alphas from 0 to INITIAL_ALPHA; no alpha and one to nine pairs) load under different identifiers with dimensions 10 x 10 and mutual information within 1/10000 of 1; the six matrices are the correlation matrices of such distributions; the panels show the estimates below 3 of the tasks with ten pairs over alpha and of those without alpha over the number of pairs, with dotted lines within 1/10000 of 1; results without these parameters raise a KeyError.", "quantifier": "for all generators, formats which tell the ten alphas apart, draws of the search, heaps and rows of results about these tasks", "why_tests_cant": "The tasks come out of numerical searches over uncountable intervals and the rows of results are arbitrary; tests see a few results of one generator.", "anchors": ["workflows/projects/Beyond_Normal/figure_sparsity.smk:13-26", "workflows/projects/Beyond_Normal/figure_sparsity.smk:40-107", "workflows/projects/Beyond_Normal/_sparsity_utils.py:8-57", "workflows/projects/Beyond_Normal/_common_figure_utils.py:114-156"]}
{"id": "C96", "title": "The figure of growing mutual information", "statement": "All 24 searches succeed: the tasks of the families Sparse Gaussian, Spiral and Half-cube with desired mutual information 0 to 5 load under different identifiers with dimensions 3 x 3 and report an information within 1/10000 of the desired one; the figure has one panel per family in the order of their names, at most three, each showing all estimates for the rows of its family over the desired information; for the results of these tasks no family is left out and the dotted line is the diagonal up to 1/10000; results without rows or of a task without desired information raise a KeyError.", "quantifier": "for all generators, matrix exponentials, formats which tell the eight values apart, draws of the search, heaps and rows of results", "why_tests_cant": "The tasks come out of numerical searches with random restarts and the rows of results are arbitrary; a test runs one search and looks at one figure.", "anchors": ["workflows/projects/Beyond_Normal/figure_high_mi.smk:14-40", "workflows/projects/Beyond_Normal/figure_high_mi.smk:54-75", "workflows/projects/Beyond_Normal/_high_mi_utils.py:1-172"]}
{"id": "C97", "title": "The spirals keep the information and the distances, and their figure is drawn over the right speeds", "statement": "For every speed and every correlation c in (-1, 1), spiral_task of figure_spiral.smk loads a task with dimensions 2 and 1 and mutual information -ln(1-c^2)/2, whose points X are those of the normal distribution, each turned by the angle speed*|x|^2, and whose points Y are unchanged. The seven tasks of the figure load under different identifiers, scaled, all with information ln(5/3). find_speed gives the speed of a listed task and a KeyError otherwise. The panel shows the estimates under 3 over the speeds of their tasks with the true value flat at ln(5/3); a kept row about another task raises a KeyError. The picture of plot_spiral.py shows the points drawn from the rectangle, and the same points turned with speeds 1/2 and 3/2, at the same distances from the origin.", "quantifier": "for all speeds, correlations in (-1, 1), draws of the generators, heaps, matrix exponentials that meet the differential equation, number formats that separate the seven speeds, and all tables of results with known estimators", "why_tests_cant": "the figure is only looked at; that the information does not depend on the speed and that each row is drawn at the speed of its own task is a statement about all speeds and all tables", "anchors": ["workflows/projects/Beyond_Normal/figure_spiral.smk:16-82", "workflows/projects/Beyond_Normal/scripts/plot_spiral.py:11-127"]}
{"id": "C98", "title": "The figures of the concept and the script about spirals show what they say", "statement": "In 1v1.py the function f_2 is strictly increasing with values in (0, 3) and has four stairs near 0, 1, 2 and 3, g_2 is strictly decreasing and g_1 (erf) is strictly increasing, so that the true value, 1/2 ln(400/39), is the same in the three panels; the numbers in the titles are the mean and the standard deviation of the estimates for the seeds 0, 1, ... In 2v1.py the true value is 1/2 ln(30000/4079) in the three panels, X is turned with the speeds 0, 1/2 and 1, and Y is unchanged. In any number of coordinates the spiral with the generator of the first two turns these by the angle speed |x|^2, leaves the others and preserves the norm. In ksg_spiral.py the true value is -1/2 ln(1 - rho^2) for all dimensions, and the row of speed 0 shows the estimate without distortion; the correlation -1 passes the assertion but is rejected with a ValueError, and one-dimensional X ends with a ValueError.", "quantifier": "for all arguments of the functions, all samplers, all numbers of points and seeds, all dimensions, speeds, correlations and seeds, all estimators defined everywhere, all draws of the normal distribution with the right shape", "why_tests_cant": "The scripts have no tests; strict monotonicity and the form of the spiral are statements about all reals and all dimensions, and the true values are logarithms of determinants which a run would compare to a few digits only.", "anchors": ["scripts/Beyond_Normal/figures/concept/1v1.py:12-176", "scripts/Beyond_Normal/figures/concept/2v1.py:7-102", "scripts/Beyond_Normal/experimental/ksg_spiral.py:24-81", "src/bmi/transforms/_rotate.py:8-64"]}
{"id": "C99", "title": "The figure of the pointwise mutual information shows the true one of each distribution, in the right pixels", "statement": "gaussian_logpdfratio and student_logpdfratio return the logarithm of the joint density over the product of the two densities, for every positive definite matrix (others raise ValueError), with closed forms for a correlation. The workflow makes six columns (Student with 1, 2, 3, 5, 10 degrees of freedom, then normal), from tasks with correlation 1/2 sampled with seed 42; matrix and degrees of freedom are found in the parameters of the task; the upper picture is the true pointwise mutual information of that distribution and the lower one the critic trained on all 10000 samples, with rows along Y, and every value lies in the pixel of the point it was computed for; the first 1000 samples are drawn; the titles after strip and capitalize are 'Student, $\\nu=df$' and 'Normal'. On the antidiagonal the normal values fall below any bound while those of Student variables rise above any bound on both diagonals.", "quantifier": "all points, positive definite matrices, degrees of freedom, correlations; all random draws, estimators and heaps", "why_tests_cant": "The workflow is never run by the tests; pictures are checked by eye only, and identities between densities hold for all reals and not just for a few points.", "anchors": ["workflows/projects/Beyond_Normal/figure_visualise_pointwise_mi.smk:20-82", "workflows/projects/Beyond_Normal/figure_visualise_pointwise_mi.smk:103-153"]}
{"id": "C100", "title": "The figures of the tasks draw the published tasks they name, with the coordinates in order", "statement": "All 17 ids of figure_visualise_tasks.smk are distinct and among the 40 published ids, so the dictionary comprehension succeeds and holds under each id the task with that id; an id the benchmark lacks raises KeyError. The figure of a task has the task's name as its title and shows the pairs of 2000 points sampled with seed 0 (N_SAMPLES = 10000 is never used): columns $X_1$.. then $Y_1$.., rows x followed by y; a sample whose rows do not have as many entries as the dimension raises ValueError.", "quantifier": "all implementations of floats, random draws and matrix routines for which the benchmark builds; all tasks, samples and heaps", "why_tests_cant": "The workflow is not run by the tests, and a stale id in the list would show only when the workflow starts.", "anchors": ["workflows/projects/Beyond_Normal/figure_visualise_tasks.smk:16-56", "workflows/projects/Beyond_Normal/figure_visualise_tasks.smk:68-83"]}
{"id": "C101", "title": "The plot of results on the demonstration tasks puts every estimate above its task and every line at the truth", "statement": "In cool_tasks.smk the dictionaries of names, colours and markers have exactly the estimators as keys and no two estimators share a name, colour or marker. plot_results draws one series for each estimator which has rows with 5000 samples; it has one point for each such row, whose height is the estimate and whose horizontal place is the index of the row's task plus the shift divided by 20; the ticks name X, AI, Waves, Galaxy at the places of X, AI, Fence, Balls; each task gets a line of half-width 1/5 at its place, at the mean of the true values (hence at the truth when the rows agree). An unknown task raises ValueError and an unknown estimator KeyError.", "quantifier": "all tables of results and all shifts", "why_tests_cant": "No test runs the workflow; that points, lines and renamed ticks match holds for every table and not only for the published one.", "anchors": ["workflows/projects/Mixtures/cool_tasks.smk:19-53", "workflows/projects/Mixtures/cool_tasks.smk:160-193"]}
{"id": "C102", "title": "The script which times the KSG estimators runs the one asked for on independent normal variables and prints a true value of zero", "statement": "In ksg_time_comparison.py get_args returns exactly when the neighborhood, the number of samples, the chunk size and dim_x are at least 1 (AssertionError otherwise), with dim_y equal to dim_x when it is missing or 0. get_estimator builds the slow estimator for SLOW and the NumPy one for NUMPY, with the single neighborhood, and raises ValueError for other names. main estimates from the two parts of the draws, with key 10, of a normal variable with zero mean and identity covariance, and prints that estimate together with the true value 0. A negative dim_y passes get_args and stops main with ValueError.", "quantifier": "all arguments, all random generators, all estimators", "why_tests_cant": "No test runs the script; that the true mutual information is exactly zero holds for all dimensions.", "anchors": ["scripts/Beyond_Normal/experimental/ksg_time_comparison.py:60-84", "scripts/Beyond_Normal/experimental/ksg_time_comparison.py:87-142"]}
