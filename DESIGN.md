# Formal model of kalepy in Rocq (Coq 8.16.1)

Layout of `rocq/theories`:

* `Base.v`: exceptions as values, sums, decidable comparisons.
* `Model*.v`: the code, function by function; every definition cites file and lines in /repo.  No proofs.
* `Spec*.v`: the vocabulary of the statements, independent of the model (textbook density, iterated integrals,
  normal distribution, grammar of boundary specifications, trees, ...).
* `Proof*.v`: lemmas and proofs.
* `Properties*.v`: the property theorems only.  Each has `Print Assumptions` beneath it and an `Example` that meets
  its hypotheses for concrete, non-trivial inputs.

`properties.jsonl` holds the claims in English, `MANIFEST.json` the theorems of each claim, `seeded/LOG.jsonl` the
deliberately wrong programs against which the theorems were tested.

## Trusted base

* Coq's kernel (`coqc`; also re-checked with `coqchk`).
* The axioms listed by `Print Assumptions` under every property theorem.  Only these occur, all of the standard library:
  * `ClassicalDedekindReals.sig_forall_dec`, `ClassicalDedekindReals.sig_not_dec` (construction of the reals),
  * `FunctionalExtensionality.functional_extensionality_dep` (needed by the reals),
  * `Classical_Prop.classic` (limits and integrals: Coquelicot's lemmas rest on it).

  Theorems about lists, strings and shapes alone are closed under the global context.  Coquelicot (installed with Coq here)
  is used for derivatives and integrals; it adds no axioms.  No axiom of our own is added, no kernel check is switched off.
* The correspondence between the Gallina definitions and the Python text, which is what the citations are for.
* The documented behaviour of the numpy/scipy functions that are modelled (next section).

## Modelling conventions

* Floating point numbers are Coq's reals `R`: rounding, overflow, underflow are not modelled.  Where NaN and infinities
  decide the control flow (validation of weights, kernel matrix, extrema, histograms, levels), values are in
  `flt := Fin r | PInf | NInf | NaN`.
* Integer arrays (where assignments cut fractions) are modelled for `minmax` and for reflection (`ModelInt.v`); elsewhere data
  are floating point arrays.
* Python exceptions are values: `res A := Ok a | Err exn`; the kind of exception is modelled, its text is not.
* Random draws are explicit arguments; theorems hold for every outcome.  `np.argsort` (unspecified order of equal
  entries) is any function that returns a sorting permutation.
* Mutation and aliasing are modelled where they can be observed: functions that write to an argument return it too, caches
  and default dictionaries are explicit state.
* Arrays are shapes with a function on indices (`nda`), C order; points are functions from the dimension to `R`.
* numpy/scipy functions implemented in the model by their documented behaviour: `linalg.cholesky`, `inv`, `det`
  (elimination without pivoting, equal over the reals for positive definite matrices), `cov`, `cumsum`, `searchsorted`,
  `interp`, `interp1d`, `RegularGridInterpolator` (linear), `meshgrid(ij)`, `histogram`, `histogram2d` with given
  edges, `linspace`, `sort`, `squeeze`, `pad`, `unravel_index`, `diff`, `around`, masked arrays, `str.lower`,
  `str.strip`.

## What is modelled of each file

| File | Modelled | Not modelled |
|------|----------|--------------|
| kernels.py | `Kernel` (density, resample with and without reflection, caches), all distributions (profiles, norms, sampling), `_check_reflect`, kernel lookup, `_evaluate_numba` | numba compilation; `_get_truncation_bounds` (never called) |
| kde.py | `KDE.__init__`, extrema, points, density, from_hist, pdf, cdf, resample, bandwidth, weights, neff, covariance, warnings of `_finalize`, references to the caller's arrays | `bw_rescale` arrays of several numbers with a single parameter, `helper`, deprecated aliases |
| utils.py | `add_cov`, `rem_cov`, `bound_indices`, `centroids`, `cov_keep_vars`, `cumsum`, `cumtrapz`, `histogram`, `matrix_invert`, `meshgrid`, `midpoints`, `minmax`, `parse_edges` with `_get_edges_1d` and `_guess_edges`, `array_str`, `stats`, `stats_str`, `bins`, `iqrange`, `isinteger`, `isjagged`, `jshape`, `quantiles`, `run_if*`, `really1d`, `flatten`, `flatlen`, `spacing`, `subdivide`, `trapz_nd`, `trapz_dens_to_mass`, `_parse_extrema` | random test data, automatic binning of numpy |
| sample.py | everything | densities of both signs with mean zero, Poisson and uniform generators themselves |
| plot.py | confidence, levels, quantiles/sigmas, `draw_hist1d`, padding and preparation of histograms, masks, `hist2d` values, `contour` (values and levels without smoothing), limits of scatter/carpet, `dist1d` and `hist1d` (curve, bars, bands, errors), `dist2d` (rows, bins, masked histogram, contours, errors), `carpet` (points, noise, opacity, sizes, extent), colours and colormaps (`_parse_color_cmap`, `_color_to_cmap` with matplotlib's HSV conversion and table), `Corner`: limits, options, target, legend, origin, weights, colours | drawing (line styles, axes labels, ticks, cut and reversed colormaps of contours), scipy.ndimage smoothing/zoom, automatic bins of numpy |
| __init__.py | density, pdf, resample and their keyword handling | `corner`, `carpet` ... re-exports (see plot.py) |

Simplifications are noted at the definitions; the most important ones:

* KDE: a dataset is a list of points with at least one dimension; `kde_new` takes numbers (no NaN in the data).
* Resampling: a kernel matrix with NaN is a ValueError.
* Strings: characters with codes up to 255.
* Keyword arguments of the top-level functions: `extrema`, `points`, `helper` at their defaults; kernel classes
  written by the user are accepted but not evaluated.
* Corner: a panel is its visibility and axis limits; data are floating point arrays.
* `hist2d`, `histogram`: edges are given.

## Properties

*proved*: the statement in properties.jsonl as it stands (if a user's expectation fails, the statement says so, and a
`_refuted` theorem exhibits the inputs).  *partial*: a `_partial` theorem with its restriction, and the refutation of
the rest.  Theorem names are in MANIFEST.json; the last column gives the file.

| Id | Claim | Status | Modelled by | How proved | File |
|----|-------|--------|-------------|------------|------|
| C01 | Density is the textbook weighted kernel sum | proved | Kernels `eval_numba`, `kernel_density`, `dist_eval`, `norm_d`; LinAlg `cholesky`, `minv` | induction on the dimension: U^T U = M^-1 from the Schur complement, quadratic form identity; independent spec `textbook` (SpecKernels) | PropertiesDensity |
| C02 | Density is non-negative and bounded by its central value | proved | `eval_numba` with the reflection loop, `kde_density` | termwise: profiles lie between 0 and their central value | PropertiesDensity |
| C03 | The order of the data does not matter | proved | `kde_new`, `neff`, `cov`, bandwidth, `kde_density` | every sum over the data is invariant under `Permutation` | PropertiesDensity |
| C04 | Scaling all weights does not change the pdf | proved | as C03 | weights enter only through w/sum(w); algebra of sums | PropertiesDensity |
| C05 | Integer weights act as repeat counts | proved | as C03 | list induction over the repeats; explicit dataset for the refutation | PropertiesDensity |
| C06 | Translation and change of units | proved | as C03, reflection boundaries moved along | covariance is bilinear, Cholesky factor of diag*M*diag, quadratic form unchanged | PropertiesDensity |
| C07 | Kernels are normalised in every dimension | proved | Kernels `dist_eval`, `norm_d` | iterated improper integrals (SpecIntegral): Gaussian integral via the Wallis product, beta recursion for the finite kernels | PropertiesDensity |
| C08 | The pdf integrates to one | proved | Kernels `kernel_density` | C01 + C07 + triangular change of variables one coordinate at a time | PropertiesDensity |
| C09 | Finite kernels have finite support | proved | finite kernels, `kde_extrema` | Cauchy-Schwarz in the M^-1 inner product | PropertiesDensity |
| C10 | Extrema contain the data | proved | Extrema `kde_extrema`, `parse_extrema` | case analysis; norm.ppf is any inverse of the normal distribution function (shown to exist, ProofNormal) | PropertiesDensity |
| C11 | Reflection conserves probability in one dimension | proved | `eval_numba` reflection loop | substitution in the integrals of the mirrored copies | PropertiesDensity |
| C12 | No density outside reflecting boundaries | proved | as C11 | closed form of the loop over dimensions (a sum over the dimensions after the last one left); two-dimensional counterexample | PropertiesConstruct, PropertiesDensity |
| C13 | Reflection outside the kernel's reach changes nothing | proved | as C11 | mirrored copies are outside the support | PropertiesDensity |
| C14 | Reflect specifications are validated | proved | Reflect `check_reflect` on a universe of Python values | case analysis in both directions against the grammar of SpecReflect | PropertiesReflect |
| C15 | reflect=True encloses the data | proved | `check_reflect` with True | exact bounds (min*(1-eps) ...), sign analysis | PropertiesReflect |
| C16 | Boundary specification mixing True and a number in 1-D | proved | `check_reflect` | computation for each combination | PropertiesReflect |
| C17 | Arguments are not modified | proved | argument returned beside the result by constructor, density, resample | case analysis of what each branch writes | PropertiesReflect, PropertiesResample |
| C18 | Kept parameters are resampled verbatim | proved | Resample `resample_clear` | zeroed rows of the coloured noise, for every oracle | PropertiesResample |
| C19 | keep together with reflect | proved | `zero_rows`, `resample_reflect` | Cholesky of a matrix with a zero row fails | PropertiesResample |
| C20 | Reflected resampling returns exactly the requested points inside the bounds | proved | `resample_reflect`, `reject_loop` | invariant of the loop (accepted, iterations, draw size) | PropertiesResample |
| C21 | Reflected resampling versus reflected density | proved | `truncate`, `reflect_data` | filter over the mirrored data; one-point counterexample with a Box | PropertiesResample |
| C22 | Weights are validated | proved | KDE `check_weights` over `flt` | case analysis | PropertiesDensity |
| C23 | Effective number of points | proved | KDE `neff` | Cauchy-Schwarz | PropertiesDensity |
| C24 | Automatic bandwidth factors | proved | KDE `scott_factor`, `silverman_factor` | real powers | PropertiesDensity |
| C25 | Bandwidth specifications | proved | KDE `set_bandwidth` | case analysis; matrix entries | PropertiesDensity |
| C26 | Grid evaluation equals pointwise evaluation | proved | Grid `mesh`, `density_grid` | index arithmetic of C-order flattening | PropertiesGrid |
| C27 | Selecting parameters gives the marginal distribution (Gaussian) | proved | `kde_density` with params | completing the square in the block decomposition, iterated improper integral | PropertiesDensity |
| C28 | Parameter order is consistent | proved | `resolve_params`, `kde_density` | permutation of the coordinates of the quadratic form | PropertiesDensity |
| C29 | Single-point queries keep their shape | proved | Api `density_values`, `sample_array` | computation of shapes | PropertiesApi |
| C30 | Histogram constructor (uniform bins) | proved | Grid `from_hist_1d`, `from_hist_nd`, `bin_centers` | list lemmas | PropertiesGrid |
| C31 | Histogram constructor (general bins) | proved | as C30 | explicit histogram; exact positions | PropertiesGrid |
| C32 | CDF is monotone and normalised on its grid | proved | Grid `kde_cdf`, `rgi`; Nd `trapz_dens_to_mass`, `cumsum_nd` | monotone partial sums; exact node values | PropertiesGrid |
| C33 | CDF outside its grid | proved | as C32 | linear extrapolation beyond the last interval | PropertiesGrid |
| C34 | Top-level pdf function | proved | Api `api_density`, `api_pdf`, `api_resample` | computation: the keyword params always reaches KDE.__init__ | PropertiesApi |
| C35 | Kernel lookup | proved | Api `get_distribution_class`, `lower_strip` | string lemmas | PropertiesApi |
| C36 | Finite kernel samples stay in the kernel's support | proved | Resample `dist_sample` | norm estimates; median of three | PropertiesResample |
| C37 | Triweight inverse transform | proved | Resample `triweight_cdf`, `tab_x`, `tab_y`; Interp | monotone table, bracketing of the interpolant, derivative bound | PropertiesResample |
| C38 | Resampled points lie in the estimate's support | proved | `resample_clear` | C36 scaled by the bandwidth | PropertiesResample |
| C39 | Points inside bounds are selected exactly | proved | Utils `bound_indices` | induction over the rows of bounds | PropertiesUtils |
| C40 | Cumulative sums | proved | Nd `cumsum_ax`, `cumsum_nd` | induction on the axes | PropertiesNd |
| C41 | Density-to-mass conversion conserves the integral | proved | Nd `trapz_ax`, `trapz_dens_to_mass` | induction on the axes; integral of a multilinear function over a box | PropertiesNd |
| C42 | Cumulative trapezoid integration | proved | Nd `cumtrapz` | C40 + C41, zero padding | PropertiesNd |
| C43 | Centroids are centres of mass | proved | Nd `centroids` | iterated Riemann integrals of the multilinear density | PropertiesNd |
| C44 | Running minima and maxima | proved | Utils `minmax` | fold over the chunks | PropertiesMisc, PropertiesUtils |
| C45 | Weighted quantiles | proved | Utils `quantiles` | sorted permutations, np.interp lemmas | PropertiesUtils |
| C46 | Midpoints | proved | Nd `midpoints` | induction on the axes | PropertiesNd |
| C47 | Subdividing edges | proved | Utils `subdivide` | list lemmas | PropertiesUtils |
| C48 | Extrema parsing | proved | Extrema `parse_extrema`, Construct `parse_extrema_py`, Dist `parse_extrema_params` | case analysis of all arguments; the shared pair is characterised exactly and refutes the expectation | PropertiesConstruct, PropertiesDensity |
| C49 | Colouring and whitening are inverse | proved | Utils `add_cov`, `rem_cov` | Cholesky identities | PropertiesUtils |
| C50 | Automatic evaluation grid | proved | Grid `guess_edges`, `get_edges_1d`, `kde_points`; State | linspace lemmas | PropertiesGrid |
| C51 | Grid samples stay in their bins | proved | Sample `sg_sample` | position in [0,1] of `intrabin_pos` | PropertiesSample |
| C52 | Bins are chosen proportionally to their mass | proved | Sample `random_bin`, `data_to_cumulative` | searchsorted on cumulative sums, any argsort | PropertiesSample |
| C53 | Intra-bin inverse transform | proved | Sample `intrabin_pos` | quadratic formula | PropertiesSample |
| C54 | Samples follow the density inside each bin | proved | `norm_grads`, `intrabin_pos` | exact condition from C53; concrete refutation | PropertiesSample |
| C55 | sample_grid with scalar values in 1-D | proved | Sample `sample_grid` | case analysis | PropertiesSample |
| C56 | Outlier sampling conserves total weight | proved | Sample `so_sample` | sums over the bins split at the threshold | PropertiesSample |
| C57 | Sampler input shapes are validated | proved | Sample `check_grid` | case analysis | PropertiesSample |
| C58 | Plot limits accumulate over any history of plots | proved | Corner `plot_limits`, `corner_plots`; Utils `minmax` | induction over the history | PropertiesCorner |
| C59 | Plot calls are independent of earlier calls | proved | Options `ocall_run`, `history` | induction over the history; explicit history for the refutation | PropertiesCorner |
| C60 | Confidence intervals are nested | proved | Plot `confidence` | monotone np.interp; weight inside the band | PropertiesPlot |
| C61 | Contour levels enclose at most the requested fraction | proved | Plot `dfm_levels` | filter over decreasing cumulative sums | PropertiesPlot |
| C62 | Sigma and quantile conversions are inverse | proved | Plot `quantile_of_sigma`, `sigma_of_quantile` | exp/ln | PropertiesPlot |
| C63 | Target limit spans | proved | Corner `target` | exact list of marks | PropertiesCorner |
| C64 | Legend placement | proved | Corner `legend_default` | division by two, parity | PropertiesCorner |
| C65 | Histogram normalisation | proved | Utils `histogram` | partition of the data into bins | PropertiesUtils |
| C66 | Step outline of histograms | proved | Plot `draw_hist1d` | list induction | PropertiesPlot |
| C67 | Contour padding keeps edges increasing and aligned | proved | Plot `pad_hist`, `prep_hist` | list lemmas, index arithmetic | PropertiesPlot |
| C68 | Nested list helpers agree | proved | Utils `flatten`, `flatlen`, `really1d`, `iterable_notstring` | nested induction on trees of lists | PropertiesUtils |
| C69 | Spacing | proved | Utils `spacing` | linspace and powers of ten | PropertiesUtils |
| C70 | Matrix caches are transparent | proved | State machines of the caches | induction over the sequence of calls | PropertiesGrid |
| C71 | Default construction fails exactly for degenerate data | proved | KDE `kde_new` | zero variance, rank of the covariance in the modelled elimination | PropertiesDensity |
| C72 | No weights means equal weights | proved | KDE `kde_new` | w = 1 for all | PropertiesDensity |
| C73 | Stored reflection boundaries are stable | proved | `check_reflect` | stored value is accepted again unchanged | PropertiesReflect |
| C74 | Per-call reflect cannot be switched on or off by a boolean | proved | KDE.density reflect argument | case analysis | PropertiesReflect |
| C75 | Flat masses for a multi-dimensional grid | proved | Sample `shape_differs` | broadcast comparison | PropertiesSample |
| C76 | Grids without mass cannot be sampled | proved | Sample `norm_grads`, `data_to_cumulative` | computation | PropertiesSample |
| C77 | Scalars are bin integrals | proved | Sample `sg_sample` | C41 applied to the scalar density | PropertiesSample |
| C78 | Weights of proportional sampling | proved | Sample `sample_grid_proportional` | division of densities | PropertiesSample |
| C79 | Flat and jagged points for multi-dimensional data | proved | Api `density_values` | case analysis | PropertiesApi |
| C80 | Unknown keyword arguments | proved | Api `kde_call` | case analysis | PropertiesApi |
| C81 | Equal weights and confidence bands | proved | Plot `confidence` | comparison of two tables | PropertiesPlot |
| C82 | Confidence bands of weighted one-dimensional plots | proved | Plot `dist1d_bands` | computation and explicit data | PropertiesPlot |
| C83 | upsample=False disables smoothing | proved | Plot `smooth_width` | computation | PropertiesPlot |
| C84 | What mask_below=True hides | proved | Plot `hist2d`, `hist2d_hidden` | inequalities of densities | PropertiesPlot |
| C85 | Number of points drawn by scatter and carpet | proved | Plot `scatter_limit`, `limited` | case analysis, int() | PropertiesPlot |
| C86 | Option dictionaries given to corner plots are changed | proved | Options `ocall_run` | case analysis | PropertiesCorner |
| C87 | Location and box of the legend | proved | Corner `legend` | case analysis | PropertiesCorner |
| C88 | Origin of corner plots | proved | Corner `parse_origin`, `screen` | string and index computation | PropertiesCorner |
| C89 | Weights in corner plots | proved | Corner `parse_kde_data`, `do_plot*`, `do_hist` | case analysis | PropertiesCorner |
| C90 | One pair of limits for a corner plot | proved | Corner `set_extrema` | case analysis | PropertiesCorner |
| C91 | Panels of a corner plot are aligned | proved | Corner `set_extrema` | case analysis | PropertiesCorner |
| C92 | Curve and histogram of dist1d show the same total | proved | `dist1d`, `hist1d`, `histogram_of`, `kde_density` | integral of the marginal of any kernel (`params_integral`), sum over bins | PropertiesDist |
| C93 | Weights with automatic edges | proved | `histogram_of`, `dist1d` | case analysis | PropertiesDist |
| C94 | A number of bins is a position for the curve | proved | `dist1d`, `edge_points`, `plot_curve` | case analysis with `density_values` | PropertiesDist |
| C95 | Lists of numbers in dist1d | proved | `histogram_of`, `dist1d` | case analysis | PropertiesDist |
| C96 | Factor for the density curve | proved | `dist1d`, `dens_factor` | equation between two calls | PropertiesDist |
| C97 | KDE of data in one row | proved | `dist1d`, `density_values` | case analysis on the shape | PropertiesDist |
| C98 | Bins of dist2d for reflecting KDEs | proved | `dist2d_rows`, `dist2d_edges`, `parse_extrema_params` | case analysis on the boundaries | PropertiesDist |
| C99 | mask_below=True hides bins with data | proved | `dist2d_hist`, `dist2d_mask`, `dfm_levels` | characterisation of the contour levels (C61) | PropertiesDist |
| C100 | Order of params in dist2d | proved | `dist2d_rows`, `dist2d_contour` | density of permuted parameters | PropertiesDist |
| C101 | Errors of dist2d for data | proved | `dist2d_kde`, `kde_call` | case analysis | PropertiesDist |
| C102 | Sizes of carpet points | proved | `carpet_weights`, `carpet_sizes`, `iqrange` | monotonicity of logarithm and clipping | PropertiesDist |
| C103 | Ranges of integer arrays | proved | `minmax_int`, `put_int` | truncation towards zero on the reals | PropertiesInt |
| C104 | Reflection of integer data | proved | `kde_density_int`, `kernel_density_by`, `mirror_int`, `drawn_from_int` | equality of the two reflection loops; integral of the folded density by tails of the kernel | PropertiesInt |
| C105 | Density without points | proved | `density_values` | case analysis; grid evaluated pointwise | PropertiesAlias |
| C106 | The dataset is kept by reference | proved | `held_init`, `held_density`, `held_resample` (caller's objects as a separate record) | equality with a new KDE; counterexample with two points | PropertiesAlias |
| C107 | Points and cumulative distribution are not recomputed | proved | `points_st`, `cdf_st`, `obj_with` | invariant of the object state | PropertiesAlias |
| C108 | What the methods of Corner draw | proved | `ocall_run`, `wrapper_1d`, `wrapper_2d`, `panel_1d`, `panel_2d` | look-up in merged dictionaries; invariant of the shared dictionaries over histories | PropertiesCorner2 |
| C109 | A colormap given to Corner is used | proved | `parse_color_cmap`, `corner_colours`, `dist2d_colours` | case analysis; counterexample black to white | PropertiesColor |
| C110 | Colormap made from a colour | proved | `rgb_to_hsv`, `hsv_to_rgb`, `strengthen`, `color_to_cmap`, `from_three` | hue sector by sector as one formula per component; monotone interpolation | PropertiesColor |
| C111 | Rescaled bandwidths | proved | `kde_rescaled`, `rescaled`, `times_array`, `set_bandwidth` | equality of bandwidth matrices; inverse and Cholesky factor of a 2x2 matrix that is not symmetric, triangular substitution in the integral | PropertiesRescale |
| C112 | Mean of the density | proved | `kde_density`, `kernel_density`, `prof` | triangular substitution with a linear factor; odd integrals vanish | PropertiesMoments |
| C113 | Covariance of the density | proved | `kde_density`, `kernel_density`, `prof`, `dist_norm`, `np_cov` | triangular substitution with a quadratic factor; recurrence between the integrals of (1-t^2)^(q/2); points recovered from whitened points | PropertiesMoments |
| C114 | Boundaries give the extrema | proved | Construct `kde_construct`, `parse_extrema_py`, `reflect_object` | relation between the entries before and after the check; outcome of `_parse_extrema` for every argument | PropertiesConstruct |
| C115 | Total with boundaries in several dimensions | proved | `kernel_density` with reflect, `kde_density` | iterated integrals in any order of coordinates; one kernel integrated over all dimensions but one is even; folding in one dimension; products of half-line integrals | PropertiesMultiReflect |
| C116 | Carpet plots | proved | Carpet `carpet`, `carpet_ystd`, `carpet_yave`, `default_alpha`, `base_size` | inversion of a successful call; the division by sqrt(dev) + 1 contracts; square roots compared with 10, 3 and 60 | PropertiesCarpet |
| C117 | Quantiles along an axis | proved | QuantAxis `quantiles_ax`, `lane`, `sums_fit`, `sum_index` | each line compared with `quantiles` of a list; the index into the sums after broadcasting is the line itself for the last axis | PropertiesQuantAxis |
| C118 | Parameters counted from the end | proved | Keep `kernel_resample_kf`, `zero_entries`, `zero_rows_kf`, `kde_density_pf` | every place where a number is used as an index looked up separately; equality with the models for plain numbers | PropertiesKeep |
| C119 | Kernel classes called directly | proved | Classes `evaluate_nd`, `inside_nd`, `grid_nd`, `sample_nd` | integral of the kernel as in C07; grid as in C26; cases of the shape | PropertiesClasses |
| C120 | Noise follows the kernel in one dimension only | proved | `dist_sample` with `median3`, `nth_root`, `triweight_inverse` | means as iterated integrals over the random numbers; median of three by parts twice; the table one segment at a time with substitution by the distribution function; products of functions of one number; fourth moment of the ball from the integrals of (1-r^2)^q | PropertiesNoise |
| C121 | Warnings about the kernel matrix | proved | Warn `finalize`, `kde_warnings` | logarithms turned into products; minimum and maximum over lists; four points whose covariance is known, in two units | PropertiesWarn |
| C122 | Samples of arrays as text | proved | Text `array_str`, `stats` | slices of a list in three parts; induction over the joined texts | PropertiesText |
| C123 | Summaries of arrays as text | proved | Text `stats_str`, `guess_format` | rules for the style proved complete and unique; quantiles as in C51; integer part | PropertiesText |
| C124 | Jagged nested lists | proved | Misc `isjagged`, `jshape`, `oshape`, `flatlen_at` | the common beginning of shapes; the number of leaves is at least the size of every beginning of the shape, with equality only for regular lists | PropertiesMisc |
| C125 | Recognising integers | proved | Misc `isinteger`, `promote`, `scalar_kind` | invariant of the promotion over the list | PropertiesMisc |
| C126 | Running in notebooks | proved | Misc `run_if`, `python_environment`, `nbshow` | substring search against its specification; cases | PropertiesMisc |
| C127 | Bins | proved | Misc `bins` | `linspace` and `midpoints` as in C29 and C61; telescoping sum | PropertiesMisc |
| C128 | Samples follow the density | proved | `kde_resample`, `resample_clear`, `dist_sample`, `kde_density` (Resample, Kernels, KDE) | ProofLaw: change of variables x = a + U^T z one coordinate at a time for the triangular factor, determinant of the factor by elimination, length of U^T z in the metric of the inverse; ProofLaw2: the laws of C120 shifted and scaled | PropertiesLaw |
| C129 | Contours of data enclose the fraction of the data | proved | Contour `contour`, `contour_levels`, with `prep_hist`, `pad_nd`, `dfm_levels` | padding with zeros keeps entries and sums, so the levels of the padded array are those of the bins; equal areas turn sums of densities into sums of weights; two computed counterexamples | PropertiesContour |
| C130 | Linear changes of the parameters | proved | `kde_init`, `np_cov`, `set_bandwidth`, `kernel_init`, `kernel_density`, `kde_density` | covariance of transformed data is G C G^T; inverse and quadratic form conjugated; volumes by Gaussian elimination into elementary maps; computed counterexample for diagonal=True | PropertiesLinear |
| C131 | The density is continuous in the evaluation point | proved | `kde_density`, `kernel_density`, `reflect_loop`, `eval_numba`, `prof` | sums, products and compositions of continuous functions; the loop over the boundaries takes the same branches at both points; counterexamples with one point | PropertiesContinuous |
| C132 | Merged data sets | proved | `kde_init`, `set_bandwidth`, `kernel_density`, `reflect_loop`, `kde_density` | sums over appended lists, also through the loop over the boundaries; bandwidths of numbers do not depend on neff; computed counterexample with two and two points | PropertiesMixture |
| C133 | Samples with kept parameters | proved | `kde_resample`, `resample_clear`, `keep_dims`, `zero_dims`, `kde_density` | the law of C128 for quantities that do not look at the kept parameters, and for one point alone; moments of the coloured noise | PropertiesKeepLaw |
| C134 | Accuracy of the cumulative distribution | proved | `kde_cdf`, `density_grid`, `cumtrapz`, `rgi` | every kernel is a rise and a fall, so the density is a non-decreasing plus a non-increasing function; the error of the trapezoid rule on each interval is at most the spacing times half the variation, and the variations add up | PropertiesCdfError |
| C135 | The density is highest among the data | proved | `kernel_density`, `kde_density` | the nearest weighted mean in the metric of the kernel matrix exists (induction over the points, minimum of a continuous function on [0,1]) and is nearer to every data point; kernels fall with the distance | PropertiesShape |
| C136 | Labels and ticks of corner plots | proved | `decorate`, `init_faces`, `corner_faces` | case analysis of the panel; the loop succeeds iff every panel does | PropertiesCornerInit |
| C137 | Figures of corner plots | proved | `figax`, `plt_figure`, `subplots_adjust`, `figure_size` | computation over the state of pyplot | PropertiesCornerInit |
| C138 | Slope and maxima of the density | proved | `kernel_density`, `kde_density` | derivative of the profiles and the chain rule; the profiles are convex in the squared distance, so the sum lies above its tangent | PropertiesSlope |
| C139 | Components of two-dimensional plots | proved | `dist2d_draw`, `draw_mask`, `zorder` | what each part can draw, part by part; the levels of mask and contours are computed from the same array | PropertiesDraw |
| C140 | Contour lines | proved | `draw_contour2d`, `outline_effects`, `mpl_levels` | cases of the levels; `small_level`: a fraction below the share of the highest entry has that entry as level | PropertiesDraw |
| C141 | Vanishing and growing bandwidths | proved | `kde_init`, `kde_density` | one constant by scaling the iterated integral; profiles decay faster than any power; substitution in the integral of each term | PropertiesBandwidth |
| C142 | Stability of the density | proved | `kde_density` | profiles are Lipschitz (constant 2) in the distance: mean value theorem; triangle inequality of the Mahalanobis distance by Cauchy-Schwarz | PropertiesStable |
| C143 | Automatic grids and units | proved | `kde_points`, `parse_edges`, `get_edges_1d`, `guess_edges`, `quantiles`, `kde_extrema`, `kde_init` | the three candidate widths scale together except bw; `kde_init_aff`; for large factors the bandwidth width is the smallest and ceil(span/width) reaches the maximum | PropertiesUnits |
| C144 | What the points argument means | proved | `kde_points_raw`, `parse_edges_raw`, `edges_spread`, `edges_1d_raw`, `points_squeeze` | the meaning is an inductive relation (`says`, `asks`), functional; case analysis over the argument; agreement with `kde_points` | PropertiesEdges |
| C145 | Slope of the density at reflecting boundaries | proved | `kde_density`, `reflect_loop` | `top_reflected` with a mirror-invariant metric; slope of an even function; slope formula of C138; counterexample with a tilted covariance | PropertiesEdgeSlope |
| C146 | Law of grid samples | proved | `sg_sample`, `random_bin`, `intrabin_pos` | change of variables with the linear distribution function, indicator functions of the intervals of random numbers per bin, argsort order of the masses | PropertiesGridLaw |
| C147 | Symmetric data | proved | `kde_init`, `kde_density`, `quantiles` | C130 and C03 combined, volume factor one from the positive mean of the density over the data; reversed interpolation table | PropertiesSymmetric |
| C148 | Means over grid samples and outliers | proved | `sg_sample`, `so_sample`, `Sample_Outliers` | law of the bin from the cumulative masses, invariance of sums under sorting; box integrals are unique, mass times centroid is the moment | PropertiesGridMany |
| C149 | Units and stability of quantiles | proved | `quantiles`, `confidence`, `np_interp`, `np_sort` | order statistics are monotone (counting), interpolation is monotone and affine in the ordinates | PropertiesQuantStable |
| C150 | Mean and variance with a boundary | proved | `kde_density` with boundaries | folding of improper integrals; halves of convergent integrals (Cauchy) | PropertiesWall |
| C151 | Contours in other units | proved | `contour`, `prep_hist`, `pad_hist`, `dfm_levels` | each step commutes with the change of units; sorting makes the levels independent of the places | PropertiesContourUnits |
| C152 | Cumulative distribution in other units | proved | `kde_cdf`, `density_grid`, `cumtrapz`, `rgi`, `kde_init` | trapezoids and densities scale inversely, so the cumulative sums are equal; the interpolation weights have no units | PropertiesCdfUnits |
| C153 | Cumulative distribution of mirrored data | proved | `kde_cdf`, `density_grid`, `cumtrapz`, `rgi`, `interp_bin` | trapezoid sums from the other end; interpolation cells of mirrored tables, with the knots apart | PropertiesCdfSymmetric |
| C154 | Samples in other units | proved | `kde_resample`, `resample_clear`, `resample_reflect`, `reject_loop`, `zero_rows`, `chol` | Cholesky factor of the scaled matrix; mirror images, truncation and rejection commute with the change of units; induction over the trials | PropertiesSampleUnits |
| C155 | Grid samples in other units | proved | `Sample_Grid`, `sg_sample`, `trapz_dens_to_mass`, `norm_grads`, `intrabin_interp` | bin volumes scale by the product of the factors; normalised gradients are unchanged; counterexample with one bin for scalars | PropertiesGridUnits |
| C156 | Symmetric data with boundaries | proved | `kde_init`, `kde_density` (reflected), `np_cov` | symmetric data have zero covariance in the mirrored dimension, so the reflected density is the unreflected one added at mirrored points; mirrored data change the signs of a row and a column of the kernel matrix, which every image of the data follows | PropertiesSymmetricWall |

Not expressible here: distributions of samples as probability measures (instead: exact sets of the random numbers that
lead to an outcome), accuracy in floating point arithmetic, anything seen only in a rendered figure, running time.
