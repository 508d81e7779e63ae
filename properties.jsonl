{"id": "C01", "title": "Density is the textbook weighted kernel sum", "statement": "Whenever KDE.density (no reflection) succeeds, the value returned at a point x is the sum over all data points of weight times the kernel profile evaluated at the squared Mahalanobis distance of x from that data point (with respect to the inverse of the kernel matrix covariance*bandwidth^2), divided by sqrt(det(kernel matrix)) times the kernel's D-dimensional normalisation. A matrix that is not positive definite raises instead of returning a number.", "quantifier": "for every number of dimensions D, every dataset, every weight vector, every symmetric kernel matrix, every kernel and every evaluation point", "why_tests_cant": "The whitening by a Cholesky factor must equal the Mahalanobis form for every dimension and every covariance matrix; tests compare a few 1-3 dimensional datasets to scipy within a tolerance.", "anchors": ["kalepy/kernels.py: Kernel.density", "kalepy/kernels.py: _evaluate_numba", "kalepy/kernels.py: Kernel.__init__", "kalepy/kde.py: KDE.density"]}
{"id": "C02", "title": "Density is non-negative and bounded by its central value", "statement": "Every density or pdf value is >= 0 for non-negative weights, with or without reflecting boundaries, and an un-reflected density never exceeds (total weight) * (kernel value at distance zero) / normalisation.", "quantifier": "for every dimension, dataset, non-negative weights, reflection specification, kernel and point", "why_tests_cant": "Requires all points of a continuum; a negative value could hide anywhere between tested points.", "anchors": ["kalepy/kernels.py: Kernel.density", "kalepy/kernels.py: _evaluate_numba", "kalepy/kernels.py: Gaussian._evaluate", "kalepy/kernels.py: Box._evaluate", "kalepy/kernels.py: Parabola._evaluate", "kalepy/kernels.py: Triweight._evaluate"]}
{"id": "C03", "title": "The order of the data does not matter", "statement": "Permuting the data points together with their weights changes neither the effective number of points, the covariance, the automatic bandwidth, the extrema nor the density at any point.", "quantifier": "for every dataset of any size and dimension, every weight vector and every permutation", "why_tests_cant": "There are N! permutations; tests can sample a handful.", "anchors": ["kalepy/kde.py: KDE.__init__", "kalepy/kernels.py: _evaluate_numba", "kalepy/kde.py: KDE._scott_factor"]}
{"id": "C04", "title": "Scaling all weights does not change the pdf", "statement": "Multiplying every weight by the same positive constant leaves neff, the covariance, the bandwidth and pdf() unchanged at every point, and multiplies density() by that constant.", "quantifier": "for every dataset, weight vector, positive constant, kernel and evaluation point", "why_tests_cant": "Universally quantified over real constants and weights; tests choose single constants.", "anchors": ["kalepy/kde.py: KDE.__init__", "kalepy/kde.py: KDE.density", "kalepy/kde.py: KDE.pdf"]}
{"id": "C05", "title": "Integer weights act as repeat counts", "statement": "For a fixed kernel matrix, giving data points natural-number weights yields exactly the density of the dataset in which each point is repeated that many times (weight 0 removes the point). With the default (automatic) covariance and bandwidth this equivalence is NOT kept, because neff and the covariance normalisation treat weights as reliability weights.", "quantifier": "for every dataset and natural-number weights; the automatic-bandwidth half is an existence claim", "why_tests_cant": "The equivalence ranges over all multiplicities; whether it survives automatic bandwidth selection is a semantic question that no finite test settles positively.", "anchors": ["kalepy/kernels.py: _evaluate_numba", "kalepy/kde.py: KDE.__init__", "kalepy/kde.py: KDE._scott_factor"]}
{"id": "C06", "title": "Translation and change of units", "statement": "Shifting all data and the evaluation point by the same vector leaves the pdf unchanged; multiplying coordinate i of data and evaluation point by a positive constant c_i (change of units) divides the pdf by the product of the c_i, when covariance and bandwidth are determined automatically.", "quantifier": "for every dimension, dataset, weights, shift vector, positive unit factors, kernel and point", "why_tests_cant": "Equivariance is quantified over all affine unit changes; tests check nothing of this kind.", "anchors": ["kalepy/kde.py: KDE.__init__", "kalepy/kernels.py: Kernel.density", "kalepy/kernels.py: Kernel.__init__", "kalepy/kde.py: KDE._scott_factor"]}
{"id": "C07", "title": "Kernels are normalised in every dimension", "statement": "For each of the kernels Gaussian, Box, Parabola/Epanechnikov and Triweight, the (iterated) integral of Distribution.evaluate over all of D-dimensional space equals one.", "quantifier": "for every number of dimensions D >= 1 and each kernel", "why_tests_cant": "Tests integrate numerically on coarse grids for D <= 3 with tolerances up to 20 percent; exact normalisation for every D cannot be tested.", "anchors": ["kalepy/kernels.py: _Distribution.evaluate", "kalepy/kernels.py: Gaussian.norm", "kalepy/kernels.py: Box.norm", "kalepy/kernels.py: Parabola.norm", "kalepy/kernels.py: Triweight.norm", "kalepy/kernels.py: _nball_vol", "kalepy/kernels.py: _beta_kernel_norm"]}
{"id": "C08", "title": "The pdf integrates to one", "statement": "Without reflection, the integral of KDE.pdf over all space equals exactly one (and that of KDE.density the total weight) whenever the kernel matrix is positive definite.", "quantifier": "for every dimension, dataset, non-negative weights with positive sum, positive-definite kernel matrix and kernel", "why_tests_cant": "Integral over a continuum for unboundedly many datasets; numerical quadrature only approximates single cases.", "anchors": ["kalepy/kernels.py: Kernel.density", "kalepy/kernels.py: Kernel.norm", "kalepy/kde.py: KDE.density"]}
{"id": "C09", "title": "Finite kernels have finite support", "statement": "For the Box, Parabola and Triweight kernels the density is exactly zero at every point that is further than sqrt(kernel_matrix[i,i]) from all data points along some dimension i; in particular it is zero everywhere outside KDE.extrema (when extrema and reflect are not user-specified).", "quantifier": "for every dimension, dataset, weights, positive-definite kernel matrix and point", "why_tests_cant": "Holds for correlated covariance matrices only because of a Cauchy-Schwarz argument; tests only check the 1-D unit kernel.", "anchors": ["kalepy/kernels.py: Box._evaluate", "kalepy/kernels.py: Parabola._evaluate", "kalepy/kernels.py: Triweight._evaluate", "kalepy/kde.py: KDE.__init__"]}
{"id": "C10", "title": "Extrema contain the data", "statement": "KDE.extrema (not user specified, no reflection) contains every data point in every dimension. This holds for finite kernels, and for the Gaussian kernel whenever the effective number of points is at least two; for 1 < neff < 2 it holds along a dimension exactly when the data range is at most the kernel half-width times 1.2*|norm.ppf(1 - 1/neff)|, and the default construction with weights [3, 1] on the data {0, 1} gives extrema that exclude both points.", "quantifier": "for every dataset, weight vector and kernel", "why_tests_cant": "The failure needs a rarely-tested region of weight space (one dominating weight); tests use uniform weights.", "anchors": ["kalepy/kde.py: KDE.__init__", "kalepy/utils.py: _parse_extrema"]}
{"id": "C11", "title": "Reflection conserves probability in one dimension", "statement": "With one reflecting boundary and all data on the inner side of it, the density integrated over the allowed side equals the total weight, for every kernel; with two boundaries this holds for finite kernels whose half-width is at most the distance between the boundaries. With two boundaries and a Gaussian kernel some probability is lost.", "quantifier": "for every 1-D dataset inside the boundaries, weights, kernel and bandwidth", "why_tests_cant": "Tests compare integrals numerically for single random datasets with loose tolerance.", "anchors": ["kalepy/kernels.py: Kernel.density", "kalepy/kernels.py: _evaluate_numba"]}
{"id": "C12", "title": "No density outside reflecting boundaries", "statement": "With reflection, the density is zero at every point lying outside the boundaries of any reflected dimension. True in one dimension and for the last reflected dimension; in two or more dimensions a point outside an earlier dimension's boundary receives a positive density exactly where mirror images added for a later dimension reach it, the point being within the limits of that dimension and all after it.", "quantifier": "for every dataset, weights, reflect specification and point; failure is an existence claim", "why_tests_cant": "Tests check only that a 1-D reflected pdf vanishes on a sampled grid.", "anchors": ["kalepy/kernels.py: Kernel.density"]}
{"id": "C13", "title": "Reflection outside the kernel's reach changes nothing", "statement": "For a finite 1-D kernel, evaluation points further than one kernel half-width inside every reflecting boundary get exactly the same density with and without reflection; a point exactly on a boundary is kept and receives twice its un-reflected density from a single boundary.", "quantifier": "for every 1-D dataset inside the boundaries, weights, finite kernel and point", "why_tests_cant": "Exact equality on a continuum of points and boundary distances.", "anchors": ["kalepy/kernels.py: Kernel.density"]}
{"id": "C14", "title": "Reflect specifications are validated", "statement": "A reflect argument is accepted only if it has one entry per dimension (or is a pair for 1-D data) where each entry is None, True, or a pair whose bounds, when both given, are strictly increasing; all other shapes and orders raise ValueError, and acceptance returns for each dimension either None or a pair of bounds (each None or a number).", "quantifier": "for every reflect argument built from None, True, False and pairs of None/True/number, and every dataset", "why_tests_cant": "The specification language is recursive and unbounded; tests enumerate a few literals.", "anchors": ["kalepy/kernels.py: _check_reflect"]}
{"id": "C15", "title": "reflect=True encloses the data", "statement": "Asking for automatic boundaries (True) produces boundaries that enclose all data points. Holds when all data are non-negative; the padding is multiplicative, so for a dimension with a negative minimum (or negative maximum) the boundary cuts off the extreme data point itself.", "quantifier": "for every dataset; failure is an existence claim over datasets with negative values", "why_tests_cant": "Failure requires negative data and a boundary off by one part in 1e8, invisible to tolerance based tests.", "anchors": ["kalepy/kernels.py: _check_reflect", "kalepy/kernels.py: Kernel.resample"]}
{"id": "C16", "title": "Boundary specification mixing True and a number in 1-D", "statement": "For 1-D data, reflect=[True, x] should place the lower boundary at the data minimum and the upper at x. Instead the pair is converted to a numeric array, True becomes the number 1.0 and the boundary is silently put at 1.0; reflect=[True, True] is rejected as out of order.", "quantifier": "for every 1-D dataset and number x", "why_tests_cant": "A coercion that depends on mixed Python types; not covered by tests.", "anchors": ["kalepy/kernels.py: _check_reflect"]}
{"id": "C17", "title": "Arguments are not modified", "statement": "Constructing a KDE, evaluating density or resampling does not modify the reflect specification owned by the caller. False: a list entry True is overwritten in the caller's list by the computed bounds, so reusing the same list for a second dataset silently applies the first dataset's boundaries. Specifications without True are left untouched.", "quantifier": "for every dataset and reflect list", "why_tests_cant": "Aliasing between caller and callee; only visible when the same list object is reused over a history of calls.", "anchors": ["kalepy/kernels.py: _check_reflect", "kalepy/kde.py: KDE.__init__"]}
{"id": "C18", "title": "Kept parameters are resampled verbatim", "statement": "resample(keep=dims) without reflection returns samples whose kept coordinates are, jointly, exactly those of one original data point, for every sample; the other coordinates differ from that same data point only by kernel noise.", "quantifier": "for every dataset, weights, keep specification (int, list, True, False, None), sample size and every outcome of the random draws", "why_tests_cant": "Must hold for every random draw; tests inspect one seed.", "anchors": ["kalepy/kernels.py: Kernel._resample_clear", "kalepy/utils.py: add_cov"]}
{"id": "C19", "title": "keep together with reflect", "statement": "Keeping one dimension while reflecting another is accepted for the same call. False: the covariance matrix row and column of a kept dimension are zeroed and the Cholesky factorisation of this singular matrix fails, so every such call raises LinAlgError; keeping a reflected dimension raises ValueError.", "quantifier": "for every dataset with at least two dimensions, every kernel matrix, every keep set disjoint from the reflected set", "why_tests_cant": "No test combines keep and reflect; failure for every input is a universally quantified statement.", "anchors": ["kalepy/utils.py: cov_keep_vars", "kalepy/kernels.py: Kernel._resample_reflect", "kalepy/utils.py: add_cov"]}
{"id": "C20", "title": "Reflected resampling returns exactly the requested points inside the bounds", "statement": "resample(size, reflect) either returns exactly `size` samples all strictly inside every boundary, or raises RuntimeError after at most 10 draws per chunk; it always terminates.", "quantifier": "for every dataset, size, chunk size, boundaries and every sequence of random trial draws", "why_tests_cant": "Rejection loop whose behaviour depends on unbounded random histories.", "anchors": ["kalepy/kernels.py: Kernel._resample_reflect", "kalepy/utils.py: bound_indices", "kalepy/kernels.py: Kernel.resample"]}
{"id": "C21", "title": "Reflected resampling versus reflected density", "statement": "Samples drawn with reflect should follow the reflected density. False: mirrored data points are discarded again when all data lie strictly inside the boundaries, so candidates are drawn from the plain kernel sum and merely truncated; the resulting distribution differs from the density returned with the same boundaries.", "quantifier": "for every dataset strictly inside the boundaries (mirror points are always dropped); the distribution mismatch is an existence claim", "why_tests_cant": "A statistical test at one seed cannot distinguish the two distributions reliably and none is present.", "anchors": ["kalepy/kernels.py: Kernel._reflect_data", "kalepy/kernels.py: Kernel._truncate_reflections", "kalepy/kernels.py: Kernel._resample_reflect", "kalepy/kernels.py: Kernel.density"]}
{"id": "C22", "title": "Weights are validated", "statement": "A weight vector is accepted exactly when it has one entry per data point, all entries are finite and non-negative and at least one is non-zero; every other numeric array raises ValueError. A Python list of weights raises TypeError even when valid.", "quantifier": "for every weight vector including NaN and infinite entries", "why_tests_cant": "All combinations of special values at all positions.", "anchors": ["kalepy/kde.py: KDE.__init__"]}
{"id": "C23", "title": "Effective number of points", "statement": "neff computed from weights lies between 1 and the number of data points, equals the number of points exactly when all weights are equal, equals 1 exactly when a single weight is non-zero, and is unchanged by rescaling the weights.", "quantifier": "for every valid weight vector of any length", "why_tests_cant": "Inequality over a continuum of weight vectors of unbounded length.", "anchors": ["kalepy/kde.py: KDE.__init__"]}
{"id": "C24", "title": "Automatic bandwidth factors", "statement": "The Scott and Silverman factors are positive, decrease when the effective number of points grows, tend below any positive value for large neff, and Scott's factor is at most one for neff >= 1.", "quantifier": "for every neff >= 1 and every dimension", "why_tests_cant": "Monotonicity over the reals and every dimension.", "anchors": ["kalepy/kde.py: KDE._scott_factor", "kalepy/kde.py: KDE._silverman_factor"]}
{"id": "C25", "title": "Bandwidth specifications", "statement": "A scalar bandwidth h gives kernel matrix h^2*covariance (only its diagonal when diagonal=True); a vector gives a diagonal kernel matrix h_i^2*cov_ii; a matrix is applied element-wise; other shapes and unknown strings raise ValueError. The documented shape (1,) is rejected with ValueError.", "quantifier": "for every dimension, covariance and bandwidth argument", "why_tests_cant": "Shape dispatch for unboundedly many dimensions and argument kinds.", "anchors": ["kalepy/kde.py: KDE._set_bandwidth", "kalepy/kde.py: KDE._compute_bandwidth", "kalepy/kernels.py: Kernel.__init__"]}
{"id": "C26", "title": "Grid evaluation equals pointwise evaluation", "statement": "density(points, grid=True) returns an array of shape (len(points[0]), ..., len(points[D-1])) whose entry [i0,...,iD-1] is the density at (points[0][i0], ..., points[D-1][iD-1]).", "quantifier": "for every number of dimensions, all grid sizes and every index tuple", "why_tests_cant": "Index-order correctness for all shapes; tests use one or two shapes and symmetric data.", "anchors": ["kalepy/kde.py: KDE.density", "kalepy/utils.py: meshgrid"]}
{"id": "C27", "title": "Selecting parameters gives the marginal distribution (Gaussian)", "statement": "For the Gaussian kernel density(params=p) equals the full density integrated over all other dimensions. For finite kernels it does not.", "quantifier": "for every dataset, weights and kernel matrix (2-D integrated to 1-D); existence claim for finite kernels", "why_tests_cant": "Equality of an integral with a formula at every point; tests compare histograms loosely.", "anchors": ["kalepy/kernels.py: Kernel.density", "kalepy/kde.py: KDE.density"]}
{"id": "C28", "title": "Parameter order is consistent", "statement": "Selecting all parameters in a permuted order and permuting the evaluation point accordingly gives the same density as the full evaluation; selecting parameter 0 of 1-D data equals no selection and any other index raises ValueError.", "quantifier": "for every dimension, permutation, dataset and point", "why_tests_cant": "Quantified over all permutations of all dimensions.", "anchors": ["kalepy/kernels.py: Kernel.density", "kalepy/kde.py: KDE.density"]}
{"id": "C29", "title": "Single-point queries keep their shape", "statement": "Evaluating M points returns M values in an array of shape (M,), and drawing L one-dimensional samples returns shape (L,). False for M = 1 and L = 1: squeeze() drops the only axis and a zero-dimensional value is returned.", "quantifier": "for every M and L", "why_tests_cant": "Holds for every size except one; size-1 is a boundary case tests do not check.", "anchors": ["kalepy/kde.py: KDE.density", "kalepy/kernels.py: Kernel.resample", "kalepy/sample.py: sample_grid", "kalepy/sample.py: sample_outliers"]}
{"id": "C30", "title": "Histogram constructor (uniform bins)", "statement": "KDE.from_hist with uniformly spaced bins places one data point at the centre of every bin, with weights proportional to the bin contents and normalised so that sum(weights)*bin_volume = 1, matching the flattened histogram entry by entry in any number of dimensions.", "quantifier": "for every number of dimensions, bin counts, bin widths and histogram contents with positive sum", "why_tests_cant": "Correspondence of flattened multi-dimensional indices for every shape.", "anchors": ["kalepy/kde.py: KDE.from_hist"]}
{"id": "C31", "title": "Histogram constructor (general bins)", "statement": "KDE.from_hist places data points inside their bins for any increasing bin edges. False: the spacing of the second and third edge is used for every bin, so for non-uniform bins points can lie outside their bins, and fewer than three edges raise IndexError.", "quantifier": "existence claim over increasing edge vectors; the IndexError holds for every two-edge histogram", "why_tests_cant": "Tests use uniform bins only.", "anchors": ["kalepy/kde.py: KDE.from_hist"]}
{"id": "C32", "title": "CDF is monotone and normalised on its grid", "statement": "KDE.cdf evaluated inside the grid is between 0 and 1, non-decreasing in every coordinate, 0 on the lower faces and 1 at the upper corner.", "quantifier": "for every grid, every non-negative density with positive mass, every pair of ordered points inside the grid, in every dimension", "why_tests_cant": "Monotonicity of a multilinear interpolant over all pairs of points.", "anchors": ["kalepy/kde.py: KDE.cdf", "kalepy/utils.py: cumtrapz", "kalepy/utils.py: cumsum", "kalepy/utils.py: trapz_dens_to_mass"]}
{"id": "C33", "title": "CDF outside its grid", "statement": "KDE.cdf never leaves [0,1]. False: outside the grid values are linearly extrapolated, so far to the right the result exceeds one (and far left is negative) whenever the density at the last (first) grid interval is positive.", "quantifier": "existence claim; for every 1-D grid with positive last-bin mass a point exists with cdf > 1", "why_tests_cant": "Tests only evaluate inside the data range.", "anchors": ["kalepy/kde.py: KDE.cdf"]}
{"id": "C34", "title": "Top-level pdf function", "statement": "kalepy.pdf(data, ...) returns the probability density. False: it forwards params to a constructor that does not accept it, so every call raises TypeError.", "quantifier": "for every call", "why_tests_cant": "The function has no test; the failure for all arguments is a universal statement.", "anchors": ["kalepy/__init__.py: pdf", "kalepy/__init__.py: density", "kalepy/kde.py: KDE.__init__", "kalepy/kernels.py: Kernel.__init__"]}
{"id": "C35", "title": "Kernel lookup", "statement": "get_distribution_class returns the named kernel for every spelling that agrees up to letter case and surrounding white space, the Gaussian for None, a given distribution class itself, and raises ValueError for every other argument.", "quantifier": "for every string and every other kind of argument", "why_tests_cant": "Infinite set of strings.", "anchors": ["kalepy/kernels.py: get_distribution_class"]}
{"id": "C36", "title": "Finite kernel samples stay in the kernel's support", "statement": "Noise drawn from a finite kernel lies within the closed unit ball on which the kernel is non-zero. True for Box and Triweight in every dimension and for Parabola in one dimension; the multi-dimensional Parabola sampler can return points outside.", "quantifier": "for every outcome of the random draws and every dimension; existence claim for Parabola in D >= 2", "why_tests_cant": "Must hold for every random outcome including extreme ones.", "anchors": ["kalepy/kernels.py: Box._sample", "kalepy/kernels.py: Triweight._sample", "kalepy/kernels.py: Parabola._sample"]}
{"id": "C37", "title": "Triweight inverse transform", "statement": "The tabulated function used to draw Triweight radii is the linear interpolation of the inverse of a strictly increasing cumulative distribution that runs from 0 at radius 0 to 1 at radius 1; interpolated radii are in [0,1], non-decreasing in the random number.", "quantifier": "for every random number in [0,1]", "why_tests_cant": "Continuum of random numbers.", "anchors": ["kalepy/kernels.py: _triweight_cdf", "kalepy/kernels.py: Triweight._sample"]}
{"id": "C38", "title": "Resampled points lie in the estimate's support", "statement": "Every point drawn with a finite kernel in one dimension (no reflection) is within one kernel half-width of some data point, hence inside KDE.extrema and in the closed support of the density.", "quantifier": "for every dataset, weights, bandwidth and random outcome", "why_tests_cant": "Every random outcome.", "anchors": ["kalepy/kernels.py: Kernel._resample_clear", "kalepy/kernels.py: Box._sample", "kalepy/kernels.py: Parabola._sample", "kalepy/kernels.py: Triweight._sample"]}
{"id": "C39", "title": "Points inside bounds are selected exactly", "statement": "utils.bound_indices(data, bounds) selects exactly the points strictly inside every dimension's bounds; with outside=True it selects points strictly outside in all dimensions at once, which for two or more dimensions is not the complement (points outside in one dimension only are in neither set).", "quantifier": "for every dataset and bounds with None entries", "why_tests_cant": "Partition property over all points and dimensions.", "anchors": ["kalepy/utils.py: bound_indices"]}
{"id": "C40", "title": "Cumulative sums", "statement": "utils.cumsum without axis returns at each index the sum of all entries whose indices are component-wise less or equal, with the shape unchanged; with an axis it sums along that axis only.", "quantifier": "for every number of dimensions, shape and index", "why_tests_cant": "Tests compare random shapes up to four dimensions.", "anchors": ["kalepy/utils.py: cumsum"]}
{"id": "C41", "title": "Density-to-mass conversion conserves the integral", "statement": "The masses computed by trapz_dens_to_mass over all axes are non-negative for non-negative densities and increasing edges, have one entry less per dimension, and sum to the trapezoid integral computed by trapz_nd.", "quantifier": "for every number of dimensions, shape, edges and density values", "why_tests_cant": "Equality of two different summation orders for every shape.", "anchors": ["kalepy/utils.py: trapz_dens_to_mass", "kalepy/utils.py: trapz_nd"]}
{"id": "C42", "title": "Cumulative trapezoid integration", "statement": "cumtrapz with no axis returns an array of the input shape which is zero on all lower faces, non-decreasing in every index for non-negative densities, and whose last entry is the total integral. With an axis given and two or more dimensions the promised shape is violated: zeros are prepended along every axis because the padding lists are shared.", "quantifier": "for every number of dimensions and shape", "why_tests_cant": "Aliasing bug only visible for an axis argument in at least two dimensions.", "anchors": ["kalepy/utils.py: cumtrapz"]}
{"id": "C43", "title": "Centroids are centres of mass", "statement": "utils.centroids returns for each bin the exact centre of mass of the multilinear density in the bin, which lies inside the bin; for a bin whose corner densities are all zero it returns a point 7/12 across the bin instead of the middle.", "quantifier": "for every grid, non-negative corner densities and bin in 1-D marginals of any dimension", "why_tests_cant": "Exact identity with an integral for every corner configuration.", "anchors": ["kalepy/utils.py: centroids"]}
{"id": "C44", "title": "Running minima and maxima", "statement": "utils.minmax with prev= accumulates: folding it over any sequence of data chunks gives the minimum and maximum of all chunks (empty chunks leave the result unchanged, None before any data), and limit= clips the result into the limits.", "quantifier": "for every sequence of chunks of any length", "why_tests_cant": "Histories of unbounded length.", "anchors": ["kalepy/utils.py: minmax", "kalepy/plot.py: Corner.plot_kde", "kalepy/plot.py: Corner.plot_data"]}
{"id": "C45", "title": "Weighted quantiles", "statement": "utils.quantiles returns values between the smallest and largest data value, non-decreasing in the requested fraction, unchanged by rescaling the weights; the result is independent of the data order when the values are distinct, but with tied values and unequal weights it depends on how the sort orders ties.", "quantifier": "for every data vector, positive weights and fractions in [0,1]", "why_tests_cant": "Monotonicity over a continuum; tie behaviour depends on the sorting algorithm.", "anchors": ["kalepy/utils.py: quantiles"]}
{"id": "C46", "title": "Midpoints", "statement": "utils.midpoints of a sorted vector returns one value less than given, each strictly between its neighbours for strictly increasing input (hence again increasing); a vector shorter than two raises RuntimeError; along several axes the result does not depend on the order of the axes.", "quantifier": "for every vector/array, axis list", "why_tests_cant": "All lengths and axis orders.", "anchors": ["kalepy/utils.py: midpoints", "kalepy/utils.py: _midpoints_1d"]}
{"id": "C47", "title": "Subdividing edges", "statement": "utils.subdivide(x, num) keeps every original edge at position i*(num+1), inserts num equally spaced points in each interval (so stays increasing for increasing input), and returns (len(x)-1)*(num+1)+1 values for num >= 1; num=0 returns an empty array.", "quantifier": "for every vector and num", "why_tests_cant": "All lengths and subdivision factors.", "anchors": ["kalepy/utils.py: subdivide"]}
{"id": "C48", "title": "Extrema parsing", "statement": "_parse_extrema returns one (lo, hi) pair per dimension where every None is filled from that dimension's own data and every given number is kept. False for a single pair (2,) containing None with two or more dimensions: all dimensions share one list, so the first dimension's data limits are used for all. A None in a tuple is a TypeError, as is a number among pairs; other shapes raise ValueError.", "quantifier": "for every data, extrema specification; existence claim for the shared-list case", "why_tests_cant": "Aliasing of one list object in several positions.", "anchors": ["kalepy/utils.py: _parse_extrema"]}
{"id": "C49", "title": "Colouring and whitening are inverse", "statement": "rem_cov(add_cov(data, C), C) returns the data, and add_cov maps unit covariance to covariance C, for every positive definite C; a matrix that is not positive definite raises.", "quantifier": "for every dimension, positive definite matrix and data", "why_tests_cant": "All dimensions and matrices.", "anchors": ["kalepy/utils.py: add_cov", "kalepy/utils.py: rem_cov"]}
{"id": "C50", "title": "Automatic evaluation grid", "statement": "KDE.points built automatically is a uniformly spaced, strictly increasing grid that starts and ends exactly at the extrema, with between nmin+1 and nmax+1 points, and repeated accesses return the same grid.", "quantifier": "for every dataset with finite increasing extrema and every sequence of accesses", "why_tests_cant": "All datasets; caching is a history property.", "anchors": ["kalepy/kde.py: KDE.points", "kalepy/utils.py: parse_edges", "kalepy/utils.py: _get_edges_1d", "kalepy/utils.py: _guess_edges"]}
{"id": "C51", "title": "Grid samples stay in their bins", "statement": "Sample_Grid.sample returns points inside the grid: every sample lies in the closed bin chosen for it, with or without interpolation, and that bin has a positive mass.", "quantifier": "for every grid with increasing edges, density, sample count and every random outcome", "why_tests_cant": "Must hold for every random number, and any gradient however steep.", "anchors": ["kalepy/sample.py: Sample_Grid.sample", "kalepy/sample.py: _intrabin_linear_interp"]}
{"id": "C52", "title": "Bins are chosen proportionally to their mass", "statement": "The set of random numbers in (0,1] that select a given bin is an interval whose length is the bin's share of the total mass; bins of zero mass are never selected by a positive random number.", "quantifier": "for every non-negative mass array with positive sum, every bin", "why_tests_cant": "An exact measure statement over a continuum of random numbers.", "anchors": ["kalepy/sample.py: Sample_Grid._random_bins", "kalepy/sample.py: _data_to_cumulative"]}
{"id": "C53", "title": "Intra-bin inverse transform", "statement": "For a bin whose relative density difference g is in [-2,2], the position returned for a uniform random number u is the unique position at which the cumulative distribution of the linear density 1 - g/2 + g*x equals u.", "quantifier": "for every gradient in [-2,2] above the flatness threshold, every random number", "why_tests_cant": "Continuum of gradients and random numbers.", "anchors": ["kalepy/sample.py: _intrabin_linear_interp"]}
{"id": "C54", "title": "Samples follow the density inside each bin", "statement": "Within a bin, samples are distributed proportionally to the linear density given at the bin edges. False: densities are normalised by the average over all grid edges rather than by the bin's own average, so the slope used is wrong in every bin whose mean differs from the grid mean.", "quantifier": "exact condition for all 1-D bins; existence claim for failure", "why_tests_cant": "A distributional statement; tests check shapes only.", "anchors": ["kalepy/sample.py: Sample_Grid.sample", "kalepy/sample.py: _grad_along", "kalepy/sample.py: _intrabin_linear_interp"]}
{"id": "C55", "title": "sample_grid with scalar values in 1-D", "statement": "sample_grid(..., scalar_dens=...) returns samples and scalars. False in one dimension with default arguments: the tuple of results is squeezed as if it were an array and AttributeError is raised.", "quantifier": "for every 1-D call with scalar_dens", "why_tests_cant": "No test passes scalar_dens; universal failure statement.", "anchors": ["kalepy/sample.py: sample_grid"]}
{"id": "C56", "title": "Outlier sampling conserves total weight", "statement": "sample_outliers returns every bin above the threshold exactly once, weighted by its mass, plus round(total mass of the other bins) points of weight one; without Poisson noise the total weight differs from the total mass by at most 1/2; every outlier sample comes from a bin with 0 < mass <= threshold.", "quantifier": "for every grid, non-negative masses, threshold >= 0 and random outcome", "why_tests_cant": "Conservation law over all mass arrays.", "anchors": ["kalepy/sample.py: Sample_Outliers.__init__", "kalepy/sample.py: Sample_Outliers.sample", "kalepy/sample.py: _data_to_cumulative"]}
{"id": "C57", "title": "Sampler input shapes are validated", "statement": "Sample_Grid accepts exactly edges/density combinations where there is one edge vector per density axis with matching length (a flat vector is allowed for 1-D); a mismatch raises ValueError (TypeError for a flat vector of edges when the density has several dimensions, all of length one); fitting shapes with no bin along some dimension raise IndexError; masses with the grid's number of dimensions must have the shape of the bins.", "quantifier": "for every list of edge lengths and every density shape", "why_tests_cant": "All shapes.", "anchors": ["kalepy/sample.py: Sample_Grid.__init__"]}
{"id": "C58", "title": "Plot limits accumulate over any history of plots", "statement": "After any sequence of Corner plots with automatic limits, the stored axis limits contain every plotted range and are attained (they are the union's minimum and maximum); with limits supplied by the user they never change.", "quantifier": "for every sequence of plot calls", "why_tests_cant": "Histories of unbounded length.", "anchors": ["kalepy/plot.py: Corner.plot_kde", "kalepy/plot.py: Corner.plot_data", "kalepy/utils.py: minmax"]}
{"id": "C59", "title": "Plot calls are independent of earlier calls", "statement": "What a Corner plotting method draws depends only on its arguments. False: default option dictionaries are shared between calls and filled with setdefault, so quantiles or line style given in an earlier call persist for all later default calls of that method.", "quantifier": "for every pair of calls; existence claim for failure", "why_tests_cant": "A history property of module-level mutable state.", "anchors": ["kalepy/plot.py: Corner.clean", "kalepy/plot.py: Corner.plot", "kalepy/plot.py: Corner.plot_kde", "kalepy/plot.py: Corner.hist"]}
{"id": "C60", "title": "Confidence intervals are nested", "statement": "confidence() draws for each fraction q an interval containing the median it draws, and a larger fraction gives an interval containing that of a smaller fraction; all end points lie within the data range.", "quantifier": "for every data vector with at least two points, positive weights, and fractions in [0,1]", "why_tests_cant": "Monotonicity over all fractions and data.", "anchors": ["kalepy/plot.py: confidence", "kalepy/plot.py: _default_quantiles"]}
{"id": "C61", "title": "Contour levels enclose at most the requested fraction", "statement": "The density level computed for a requested fraction q is an entry of the histogram; levels are non-increasing in q; the entries strictly above the level carry at most a fraction q of the total.", "quantifier": "for every non-negative histogram with positive sum and every list of fractions", "why_tests_cant": "All histograms and fractions.", "anchors": ["kalepy/plot.py: _dfm_levels"]}
{"id": "C62", "title": "Sigma and quantile conversions are inverse", "statement": "Converting sigmas to quantiles and back returns the non-negative sigmas; quantiles in [0,1) round-trip; conversion is strictly increasing.", "quantifier": "for every non-negative sigma and quantile in [0,1)", "why_tests_cant": "Continuum of values.", "anchors": ["kalepy/plot.py: _default_quantiles"]}
{"id": "C63", "title": "Target limit spans", "statement": "Corner.target shades the region excluded by a lower limit from the limit to the upper edge of the axis consistently in 1-D and 2-D panels. False: 2-D panels use the lower axis edge for lower limits, so 1-D and 2-D panels of the same parameter shade different regions.", "quantifier": "for every axis limits and lower limit strictly inside; upper limits are consistent for all inputs", "why_tests_cant": "Drawing calls are not inspected by tests.", "anchors": ["kalepy/plot.py: Corner.target"]}
{"id": "C64", "title": "Legend placement", "statement": "The automatically chosen legend panel is always an existing panel, and for two or more parameters it is one of the hidden (upper-triangle) panels.", "quantifier": "for every number of parameters", "why_tests_cant": "All sizes.", "anchors": ["kalepy/plot.py: Corner.legend"]}
{"id": "C65", "title": "Histogram normalisation", "statement": "utils.histogram conserves weight: counts sum to the total weight of the data inside the edges; density divides by bin width; probability divides by the total weight so that with both flags the integral over the bins is the fraction of weight inside the edges (one if all data are inside).", "quantifier": "for every data, weights, increasing edges", "why_tests_cant": "All data and edges.", "anchors": ["kalepy/utils.py: histogram", "kalepy/plot.py: hist1d"]}
{"id": "C66", "title": "Step outline of histograms", "statement": "draw_hist1d draws for each bin exactly the two points (left edge, value), (right edge, value) in order, with a separator after each bin when joints=False; renormalising scales so that the largest value equals the requested one and keeps ratios.", "quantifier": "for every number of bins", "why_tests_cant": "All lengths.", "anchors": ["kalepy/plot.py: draw_hist1d"]}
{"id": "C67", "title": "Contour padding keeps edges increasing and aligned", "statement": "_pad_hist adds `pad` bins on each side: the original values are kept in the interior, padded values equal the histogram minimum, and padded edges remain strictly increasing with matching lengths.", "quantifier": "for every increasing edges of length >= 2, histogram and pad >= 1", "why_tests_cant": "All sizes.", "anchors": ["kalepy/plot.py: _pad_hist", "kalepy/plot.py: _match_edges_to_hist"]}
{"id": "C68", "title": "Nested list helpers agree", "statement": "flatlen(x) is the number of elements returned by flatten(x); flattening keeps the left-to-right order of leaves; really1d holds exactly for sequences of scalars.", "quantifier": "for every finitely nested list", "why_tests_cant": "Recursive data of unbounded depth.", "anchors": ["kalepy/utils.py: flatten", "kalepy/utils.py: flatlen", "kalepy/utils.py: really1d", "kalepy/utils.py: isjagged"]}
{"id": "C69", "title": "Spacing", "statement": "utils.spacing returns the requested number of points starting at the data minimum and ending at the data maximum, equally spaced (in log space for scale='log'), and without a number at least the requested points per decade.", "quantifier": "for every data vector (positive for log), num >= 2", "why_tests_cant": "All data and counts.", "anchors": ["kalepy/utils.py: spacing", "kalepy/utils.py: minmax"]}
{"id": "C70", "title": "Matrix caches are transparent", "statement": "The lazily computed inverse and norm of a kernel are computed once and later calls return the same value: any sequence of density evaluations, with or without params, gives each call the result it would have on a fresh instance.", "quantifier": "for every sequence of calls", "why_tests_cant": "Call histories of unbounded length.", "anchors": ["kalepy/kernels.py: Kernel.matrix_inv", "kalepy/kernels.py: Kernel.norm", "kalepy/kde.py: KDE.points", "kalepy/kde.py: KDE.cdf"]}
{"id": "C71", "title": "Default construction fails exactly for degenerate data", "statement": "With default covariance and bandwidth, density() raises ValueError if at most one weight is non-zero (in particular for a single data point: the covariance is NaN), raises LinAlgError if the data points of non-zero weight lie in a common hyperplane, and succeeds for all other data.", "quantifier": "for every dimension, dataset, weight vector and kernel", "why_tests_cant": "Depends on exact degeneracy of arbitrary data in any dimension.", "anchors": ["kalepy/kde.py: KDE.__init__", "kalepy/kde.py: KDE.density", "kalepy/utils.py: matrix_invert"]}
{"id": "C72", "title": "No weights means equal weights", "statement": "Omitting the weights gives the same density, for every option, as passing an array of ones.", "quantifier": "for every dataset, bandwidth, covariance, reflection, params and point", "why_tests_cant": "Two different code paths (neff, covariance, sums) that must agree for all inputs.", "anchors": ["kalepy/kde.py: KDE.__init__", "kalepy/kernels.py: Kernel.density"]}
{"id": "C73", "title": "Stored reflection boundaries are stable", "statement": "The boundaries a KDE stores are one entry per dimension, each None or an increasing pair of None/number; passing them again, with any data of that dimension, passes the check of boundaries (in the constructor or in a later density call) and gives the same boundaries; density(reflect=those boundaries) equals density() of the KDE storing them.", "quantifier": "for every reflect argument, dataset and later dataset", "why_tests_cant": "Quantifies over all argument shapes, data and later calls.", "anchors": ["kalepy/kde.py: KDE.__init__", "kalepy/kernels.py: _check_reflect", "kalepy/kde.py: KDE.density"]}
{"id": "C74", "title": "Per-call reflect cannot be switched on or off by a boolean", "statement": "density(reflect=None) uses the boundaries stored at construction, so reflection cannot be disabled by None; density(reflect=True) and density(reflect=False) raise TypeError (len of a bool) although both are accepted by the constructor.", "quantifier": "for every KDE, params and points", "why_tests_cant": "Universal over KDE states.", "anchors": ["kalepy/kde.py: KDE.density", "kalepy/kernels.py: _check_reflect"]}
{"id": "C75", "title": "Flat masses for a multi-dimensional grid", "statement": "When all dimensions (two or more) have k bins, a flat vector of k masses passes the shape check of Sample_Grid although it does not have the shape of the bins; sampling then works without an error, and every sample has bin number 0 in all dimensions except the last, where bin i is used only if the i-th mass is positive.", "quantifier": "for every grid with k bins along each of D >= 2 dimensions, masses, sample count and random outcome", "why_tests_cant": "Universally quantified over grids and masses; nothing fails, so a test needs to know what to look for.", "anchors": ["kalepy/sample.py: Sample_Grid.__init__", "kalepy/sample.py: Sample_Grid._random_bins"]}
{"id": "C76", "title": "Grids without mass cannot be sampled", "statement": "If all bins have mass zero, Sample_Grid is constructed without an error, and drawing samples raises IndexError as soon as one of the random numbers choosing a bin is positive.", "quantifier": "for every grid, every positive number of samples and random outcome", "why_tests_cant": "All shapes of grids, all draws.", "anchors": ["kalepy/sample.py: _data_to_cumulative", "kalepy/sample.py: Sample_Grid._random_bins"]}
{"id": "C77", "title": "Scalars are bin integrals", "statement": "The scalar returned with a sample is the volume of its bin times the mean scalar density over the corners of the bin, plus (with interpolation) the linear variation over the bin. In particular a constant scalar density c gives c times the bin volume and not c.", "quantifier": "for every grid, density, scalar density and random outcome", "why_tests_cant": "Bins of volume one hide the difference; all dimensions.", "anchors": ["kalepy/sample.py: Sample_Grid.sample", "kalepy/sample.py: Sample_Grid._init_data"]}
{"id": "C78", "title": "Weights of proportional sampling", "statement": "sample_grid_proportional draws points from `portion`; if dens = c * portion everywhere, the weight of each sample is c times the volume of its bin, for every random outcome.", "quantifier": "for every grid, positive portion, factor c and random outcome", "why_tests_cant": "All dimensions and outcomes; bins of volume one hide the factor.", "anchors": ["kalepy/sample.py: sample_grid_proportional"]}
{"id": "C79", "title": "Flat and jagged points for multi-dimensional data", "statement": "For data of two or more dimensions KDE.density and KDE.pdf raise ValueError for points given as a flat sequence, even one of D numbers (a single point has to be given as a column), and for rows of different lengths; they never evaluate something else instead.", "quantifier": "for every KDE of D >= 2 dimensions and every sequence", "why_tests_cant": "All lengths, in particular the tempting length D.", "anchors": ["kalepy/kde.py: KDE.density", "kalepy/kernels.py: Kernel.density"]}
{"id": "C80", "title": "Unknown keyword arguments", "statement": "Where KDE(data, ...) is accepted, kalepy.density and kalepy.resample with an additional keyword that no constructor knows (in particular params) raise TypeError instead of ignoring it.", "quantifier": "for every name other than chunk and every other argument", "why_tests_cant": "All names.", "anchors": ["kalepy/__init__.py: density", "kalepy/__init__.py: resample", "kalepy/kde.py: KDE.__init__", "kalepy/kernels.py: Kernel.__init__"]}
{"id": "C81", "title": "Equal weights and confidence bands", "statement": "Passing equal positive weights to confidence() is not the same as passing none: no line it draws (median, ends of bands) is moved up, and for the data 0, 1 the median line moves from 0.5 to 0.", "quantifier": "for every data vector, common weight and list of fractions; existence claim for the difference", "why_tests_cant": "Two different definitions of the cumulative distribution; all data.", "anchors": ["kalepy/plot.py: confidence"]}
{"id": "C82", "title": "Confidence bands of weighted one-dimensional plots", "statement": "The bands drawn by dist1d(confidence=True) do not depend on the weights: each holds the requested fraction of the number of data (up to one datum). So the band for one half may hold an arbitrarily small fraction of the weight.", "quantifier": "for every data vector, weights and fractions; for every bound on the fraction of the weight", "why_tests_cant": "All data and weights; nothing fails.", "anchors": ["kalepy/plot.py: dist1d", "kalepy/plot.py: confidence"]}
{"id": "C83", "title": "upsample=False disables smoothing", "statement": "In contour plots the width of the smoothing filter is multiplied by the upsampling factor; upsample=False counts as the factor zero, so that no smoothing takes place whatever was asked for, while upsample=None keeps the width asked for.", "quantifier": "for every value of smooth and upsample", "why_tests_cant": "All widths and factors.", "anchors": ["kalepy/plot.py: _prep_hist"]}
{"id": "C84", "title": "What mask_below=True hides", "statement": "hist2d(mask_below=True) hides a bin exactly if its weight is at most 0.9 times the mean weight of a datum times the area of the bin: for bins of area at most one and unweighted data the empty bins, but in general also bins holding data.", "quantifier": "for every increasing edges containing the data, positive total weight and bin; existence claim for the hidden data", "why_tests_cant": "Bins of area one hide the difference; all data.", "anchors": ["kalepy/plot.py: hist2d", "kalepy/plot.py: draw_hist2d"]}
{"id": "C85", "title": "Number of points drawn by scatter and carpet", "statement": "scatter/carpet given as a number r >= 1 limits the number of points to the integer part of r, below one it raises ValueError; True draws all points, False and None none. With a limit k exactly min(k, n) of the n points are drawn, each at most once.", "quantifier": "for every limit and data", "why_tests_cant": "All numbers and random choices.", "anchors": ["kalepy/plot.py: _scatter_limit", "kalepy/plot.py: draw_scatter", "kalepy/plot.py: carpet"]}
{"id": "C86", "title": "Option dictionaries given to corner plots are changed", "statement": "Corner.clean, plot and plot_kde write into the dictionaries dist1d and dist2d given by the caller: used for a second call they carry the quantiles and the line style of the first call along, overriding those given explicitly; plot_data and hist with such a dictionary raise TypeError.", "quantifier": "for every pair of calls and every value of the options", "why_tests_cant": "Aliasing with the caller's objects over several calls.", "anchors": ["kalepy/plot.py: Corner.clean", "kalepy/plot.py: Corner.plot", "kalepy/plot.py: Corner.plot_kde", "kalepy/plot.py: Corner.plot_data"]}
{"id": "C87", "title": "Location and box of the legend", "statement": "Corner.legend ignores the location given by the user unless a panel or a box is given as well, and never hands a given box to the figure: any two boxes give the same legend.", "quantifier": "for every number of parameters, location, panel and box", "why_tests_cant": "All arguments; nothing fails.", "anchors": ["kalepy/plot.py: Corner.legend"]}
{"id": "C88", "title": "Origin of corner plots", "statement": "Corner(origin=...) accepts exactly the two-letter strings [tTbB][lLrR], everything else raises ValueError, and the visible panels fill the corner of the figure that the letters name, each panel in a place of its own.", "quantifier": "for every string and number of parameters", "why_tests_cant": "All strings and sizes.", "anchors": ["kalepy/plot.py: _parse_origin", "kalepy/plot.py: Corner.__init__"]}
{"id": "C89", "title": "Weights in corner plots", "statement": "Corner.hist never uses weights, whether given with the data, with a KDE or to the constructor; Corner.plot_data without data ignores the weights given to the constructor, while plot, plot_kde and clean use them. Weights beside a KDE raise ValueError, as does plotting without data.", "quantifier": "for every data set, weights and combination of stored and given data", "why_tests_cant": "All combinations of sources; nothing fails.", "anchors": ["kalepy/plot.py: Corner.hist", "kalepy/plot.py: Corner.plot_data", "kalepy/plot.py: Corner.plot_kde", "kalepy/plot.py: _parse_kde_data"]}
{"id": "C90", "title": "One pair of limits for a corner plot", "statement": "Corner(limits=(a, b)) shows the range a to b in all panels, except for two parameters: then a and b become the lower ends of the axes of the first and second parameter, and the upper ends stay automatic. Any later plot with limit=True raises TypeError; another number of limits raises ValueError.", "quantifier": "for every number of parameters and pair", "why_tests_cant": "All sizes; the exception is a single size.", "anchors": ["kalepy/plot.py: Corner.__init__", "kalepy/plot.py: _set_corner_axes_extrema"]}
{"id": "C91", "title": "Panels of a corner plot are aligned", "statement": "After any history of plots, all panels of a column have the same horizontal limits and all panels of a row the same vertical limits, those stored for the parameter; the diagonal panel of a parameter has them along the axis of the parameter (vertically for the rotated last one); panels above the diagonal stay hidden.", "quantifier": "for every sequence of plot calls, number of parameters and rotation", "why_tests_cant": "Histories of unbounded length.", "anchors": ["kalepy/plot.py: _set_corner_axes_extrema", "kalepy/plot.py: Corner.plot_kde", "kalepy/plot.py: Corner.plot_data"]}
{"id": "C92", "title": "Curve and histogram of dist1d show the same total", "statement": "dist1d of a KDE at given edges covering the data draws a curve whose density integrates, and bars whose area adds up, to the same total: 1 with probability=True, the total weight otherwise; the same holds for numbers with weights, which are drawn like the KDE made from them. The density of selected parameters has this total for every kernel.", "quantifier": "for every data set, weights, kernel, bandwidth, parameter and edges", "why_tests_cant": "An integral over the line for all inputs, compared with a sum over the bins.", "anchors": ["kalepy/plot.py: dist1d", "kalepy/plot.py: hist1d", "kalepy/utils.py: histogram", "kalepy/kde.py: KDE.density"]}
{"id": "C93", "title": "Weights with automatic edges", "statement": "hist1d and dist1d with weights and edges left out raise TypeError whenever the histogram is drawn (numpy refuses automatic bins for weighted data); so does a KDE with weights when the histogram is asked for.", "quantifier": "for every data set, weights and options", "why_tests_cant": "All inputs fail; one would have to try every combination of options.", "anchors": ["kalepy/plot.py: dist1d", "kalepy/plot.py: hist1d", "kalepy/utils.py: histogram"]}
{"id": "C94", "title": "A number of bins is a position for the curve", "statement": "dist1d(kde, edges=n) with an integer n uses n as number of bins for the histogram but as a position for the density curve: the curve of a one-parameter KDE consists of the single point at x = n, and for several parameters the call raises TypeError.", "quantifier": "for every KDE and number", "why_tests_cant": "All KDEs and numbers; nothing fails in one dimension.", "anchors": ["kalepy/plot.py: dist1d", "kalepy/kde.py: KDE.density"]}
{"id": "C95", "title": "Lists of numbers in dist1d", "statement": "dist1d with the data given as a list (not an array) and without weights raises AttributeError as soon as the histogram is drawn with probability=True, which is the default.", "quantifier": "for every list, edges and options", "why_tests_cant": "All lists and combinations of options.", "anchors": ["kalepy/plot.py: dist1d", "kalepy/utils.py: histogram"]}
{"id": "C96", "title": "Factor for the density curve", "statement": "dist1d(density=r) draws exactly what density=True draws, with the heights of the curve (and nothing else) multiplied by r, and raises the same errors; density=0 draws a curve at height zero while density=False draws none.", "quantifier": "for every source, edges, factor and option", "why_tests_cant": "All factors and combinations of options.", "anchors": ["kalepy/plot.py: dist1d"]}
{"id": "C97", "title": "KDE of data in one row", "statement": "dist1d of a KDE made from an array of shape (1, N), at its own points, raises ValueError, while for the KDE of the same data as a flat vector it draws the curve at these points.", "quantifier": "for every data set, kernel, bandwidth and number of points other than one", "why_tests_cant": "All data sets.", "anchors": ["kalepy/plot.py: dist1d", "kalepy/kde.py: KDE.density", "kalepy/kde.py: KDE.points"]}
{"id": "C98", "title": "Bins of dist2d for reflecting KDEs", "statement": "dist2d of two parameters of a reflecting KDE with more than two parameters raises TypeError unless both have both boundaries or edges are given; then the bins are equal and go from boundary to boundary. With two parameters in all, a missing boundary is replaced by the extremum of the data.", "quantifier": "for every KDE, boundaries, parameters and number of bins", "why_tests_cant": "All combinations of boundaries and parameters.", "anchors": ["kalepy/plot.py: dist2d", "kalepy/utils.py: parse_edges", "kalepy/utils.py: _parse_extrema", "kalepy/utils.py: _get_edges_1d"]}
{"id": "C99", "title": "mask_below=True hides bins with data", "statement": "dist2d(mask_below=True) does not only hide empty bins: every bin up to the lowest contour level is hidden, always at least one with data in it, and what remains visible holds at most the largest quantile of the sum of the bins.", "quantifier": "for every data set, weights, edges and quantiles", "why_tests_cant": "Real numbers; sum over all bins.", "anchors": ["kalepy/plot.py: dist2d", "kalepy/plot.py: draw_hist2d", "kalepy/plot.py: _dfm_levels"]}
{"id": "C100", "title": "Order of params in dist2d", "statement": "With more than two parameters dist2d(params=[p, q]) draws data and contours with p horizontally and q vertically. For a KDE with exactly two parameters and params=[1, 0] only the contours are exchanged; points, histogram and medians are drawn in the original order, so the two do not match.", "quantifier": "for every KDE, points and parameters", "why_tests_cant": "All data sets; a wrong picture raises no error.", "anchors": ["kalepy/plot.py: dist2d", "kalepy/kde.py: KDE.density"]}
{"id": "C101", "title": "Errors of dist2d for data", "statement": "dist2d of data succeeds exactly when the KDE of these data can be constructed, and uses it; every error of the constructor, such as the ValueError for weights that are negative, not finite, all zero or of the wrong number, becomes a RuntimeError.", "quantifier": "for every data set and weights", "why_tests_cant": "All invalid inputs.", "anchors": ["kalepy/plot.py: dist2d", "kalepy/kde.py: KDE.__init__"]}
{"id": "C102", "title": "Sizes of carpet points", "statement": "The points of a carpet have sizes between 5 and 100. They grow with the weight as long as the weights spread over less than a decade, or exceed one; if the weights spread over more than a decade and are below one (such as normalised weights), heavier points are drawn smaller, and with a median weight of one the sizes are only 5 and 100, and not a number for weights of exactly one.", "quantifier": "for every positive weights and number of points", "why_tests_cant": "Real numbers: order for all pairs of weights.", "anchors": ["kalepy/plot.py: carpet", "kalepy/utils.py: iqrange"]}
{"id": "C103", "title": "Ranges of integer arrays", "statement": "utils.minmax of an integer array returns whole numbers that contain the data, but cuts stretched ends, previous ranges and limits to whole numbers towards zero: data around zero spanning less than 2/f get no margin from stretch=f, a previous range with fractional ends may stick out of the result, and limits may be exceeded.", "quantifier": "for every integer array, stretch, previous range and limit", "why_tests_cant": "All arrays and fractions; with float data nothing of this is seen.", "anchors": ["kalepy/utils.py: minmax", "kalepy/plot.py: Corner"]}
{"id": "C104", "title": "Reflection of integer data", "statement": "For an integer dataset, reflecting boundaries at multiples of one half work as for floats, in density, pdf and resample. At any other boundary the images are cut to whole numbers towards zero and the density of one parameter no longer has total one: its total is Sum_j w_j (T(lo - x_j) + T(lo - image_j)), with T the upper tail of the kernel, too small for positive and too large for negative images. In particular reflect=True on positive integers loses mass.", "quantifier": "for every integer dataset, weights, kernel, bandwidth and boundaries", "why_tests_cant": "Integrals over the real line, all data sets.", "anchors": ["kalepy/kernels.py: Kernel.density", "kalepy/kernels.py: Kernel._resample_reflect", "kalepy/kernels.py: Kernel._reflect_data", "kalepy/kde.py: KDE.density"]}
{"id": "C105", "title": "Density without points", "statement": "density and pdf without points are evaluated at the automatic points of the selected parameters. For several parameters the result is always the grid of values, with one axis per parameter in the order of params, whether grid is True or False; for one parameter it is a vector, and the points come back as a vector (parameter given by number, or flat one-dimensional data) or as one row (parameter in a list, or data given as rows).", "quantifier": "for every KDE, parameters, boundaries and automatic points", "why_tests_cant": "All numbers of parameters and sizes of the grid.", "anchors": ["kalepy/kde.py: KDE.density", "kalepy/kde.py: KDE.points"]}
{"id": "C106", "title": "The dataset is kept by reference", "statement": "A KDE made from an array keeps a reference to it: if the caller changes the array in place, later densities and samples are those of a KDE of the new data with the covariance, bandwidth, effective number of points and weights of the old, which in general is not the KDE of the new data. A list of boundaries per parameter is also kept by reference and checked anew when used. Weights and covariance are copied; data given as a list are copied.", "quantifier": "for every dataset, change of it, weights, bandwidth, boundaries", "why_tests_cant": "All changes at all times; tests do not change their inputs.", "anchors": ["kalepy/kde.py: KDE.__init__", "kalepy/kde.py: KDE.density", "kalepy/kde.py: KDE.resample", "kalepy/kernels.py: _check_reflect"]}
{"id": "C107", "title": "Points and cumulative distribution are not recomputed", "statement": "When the caller changes the data array after the cdf has been evaluated once, the cdf stays that of the old data for ever while the pdf changes. If only the automatic points had been used before, the cdf is that of the new data with the old covariance on the old points.", "quantifier": "for every KDE, change of the data and argument of the cdf", "why_tests_cant": "All histories of calls and changes.", "anchors": ["kalepy/kde.py: KDE.cdf", "kalepy/kde.py: KDE.points"]}
{"id": "C108", "title": "What the methods of Corner draw", "statement": "Corner.clean, hist, plot, plot_kde and plot_data each draw a fixed set of elements (density, confidence bands, carpet, histogram on the diagonal; contours, histogram, scatter, masked background elsewhere), the same after every history of calls. Every option in a dictionary given by the caller overrides that of the method. A line style raises TypeError in hist, plot and plot_data.", "quantifier": "for every method, history of calls, dictionaries, quantiles and number of parameters", "why_tests_cant": "All histories and dictionaries; the defaults are shared objects changed by every call.", "anchors": ["kalepy/plot.py: Corner.clean", "kalepy/plot.py: Corner.hist", "kalepy/plot.py: Corner.plot", "kalepy/plot.py: Corner.plot_kde", "kalepy/plot.py: Corner.plot_data"]}
{"id": "C109", "title": "A colormap given to Corner is used", "statement": "The panels of a corner plot show the colormap given. False: Corner hands its own colour on together with the colormap, and a colour takes precedence, so the panels always use a light-to-dark colormap made from one colour: the colour given, else the middle of the colormap given, else the next of the cycle. A colormap given together with a colour is not used either. On their own dist2d and contour use the colormap given unless a colour is given.", "quantifier": "for every colour and colormap", "why_tests_cant": "All colormaps; tests do not compare colours of the picture.", "anchors": ["kalepy/plot.py: _parse_color_cmap", "kalepy/plot.py: Corner.plot_kde", "kalepy/plot.py: Corner.plot_data", "kalepy/plot.py: dist2d", "kalepy/plot.py: contour"]}
{"id": "C110", "title": "Colormap made from a colour", "statement": "The colormap made from a colour has valid colours everywhere and becomes darker in every component from 0 to 1. It runs through the colour with saturation and brightness moved by a quarter towards one; if the colour is not grey, its components keep their order in all colours. A grey, including black and white, becomes a red with green and blue equal and smaller.", "quantifier": "for every colour and position in the map", "why_tests_cant": "Real colours, powers and distances; six sectors of the colour wheel and all ties between components.", "anchors": ["kalepy/plot.py: _color_to_cmap"]}
{"id": "C111", "title": "Rescaled bandwidths", "statement": "bw_rescale=s gives the same KDE as multiplying the bandwidth by s. A vector of one number for each parameter does the same for each bandwidth if the parameters have their own bandwidths or with diagonal=True. False for the default and all other bandwidth matrices with correlated parameters: the vector multiplies only the columns of the kernel matrix, which is no longer symmetric; for two parameters with kernel matrix ((a, b), (b, c)) the density then has total sqrt((a c - b^2) / (a c - b^2 q^2/p^2)), and raises LinAlgError if the correlation exceeds p/q.", "quantifier": "for every data set, weights, bandwidth, kernel and factors", "why_tests_cant": "Integrals over the plane for all covariances; the asymmetric matrix goes unnoticed because only one triangle is read.", "anchors": ["kalepy/kde.py: KDE._set_bandwidth", "kalepy/kernels.py: Kernel.density"]}
{"id": "C112", "title": "Mean of the density", "statement": "Smoothing does not move the centre: the mean of the pdf in every parameter is the weighted mean of the data, for every kernel, bandwidth, covariance and number of parameters (without reflection); for the density it is that mean times the total weight.", "quantifier": "for every data set, weights, kernel, bandwidth and covariance", "why_tests_cant": "Improper integrals over all of space for all data.", "anchors": ["kalepy/kde.py: KDE.density", "kalepy/kde.py: KDE.pdf", "kalepy/kernels.py: Kernel.density"]}
{"id": "C113", "title": "Covariance of the density", "statement": "The covariance matrix of the pdf is the weighted covariance of the data (without the correction for sample size) plus the kernel matrix times 1 (Gaussian), 1/(D+2) (Box), 1/(D+4) (Parabola) or 1/(D+8) (Triweight), D the number of parameters. With the default covariance and one bandwidth h this is the covariance of the data times 1 + k h^2 / (1 - 1/neff), k that number: all correlations are kept. The kernels by themselves have mean zero, no correlation and that variance.", "quantifier": "for every data set, weights, kernel, bandwidth and covariance", "why_tests_cant": "Improper integrals over all of space for all data and dimensions.", "anchors": ["kalepy/kde.py: KDE.density", "kalepy/kernels.py: Kernel.density", "kalepy/kernels.py: Gaussian._evaluate", "kalepy/kernels.py: Box._evaluate", "kalepy/kernels.py: Parabola._evaluate", "kalepy/kernels.py: Triweight._evaluate"]}
{"id": "C114", "title": "Boundaries give the extrema", "statement": "The constructor makes the extrema of a KDE from its boundaries if no extrema are given, so it can refuse boundaries that pass their own check: it succeeds exactly if reflect is None, a boolean, a pair for one parameter, or limits at least one parameter and has no None in a tuple (a list of two Nones for two parameters also passes). Without any limit, and not two parameters, it raises ValueError; a None in a tuple, as in reflect=[(0, None)], raises TypeError. With extrema given, only those decide.", "quantifier": "for every reflect and extrema argument, all data and settings", "why_tests_cant": "Lists and tuples, flat and nested, in any number of dimensions; the error comes from a function called later.", "anchors": ["kalepy/kde.py: KDE.__init__", "kalepy/utils.py: _parse_extrema", "kalepy/kernels.py: _check_reflect"]}
{"id": "C115", "title": "Total with boundaries in several dimensions", "statement": "With boundaries in one of several dimensions the density integrated over the other dimensions is the marginal of the density without boundaries, folded at the boundaries; so one boundary keeps the total weight for every kernel and covariance, two boundaries keep it for finite kernels whose half-width is at most the distance between them and data within them, and lose some of it with a Gaussian kernel. With boundaries in several dimensions the density within them does not keep the total, because the images of images are missing: of a data point in the corner of D boundaries the share (D+1)/2^D (Gaussian kernel, no correlation) lies within, and the rest is put outside.", "quantifier": "for every data set, weights, kernel, covariance, number of dimensions and boundaries", "why_tests_cant": "Improper integrals over all of space; a test compares sums over a grid in one or two dimensions at best.", "anchors": ["kalepy/kernels.py: Kernel.density", "kalepy/kde.py: KDE.density"]}
{"id": "C116", "title": "Carpet plots", "statement": "carpet draws one point for each number of the data, at exactly that abscissa (ordinate with rotate), at most limit of them. With uniform noise the ordinates stay within ystd of yave + shift, also with fancy; by default that is a strip below zero on an axis with positive upper limit. Normal noise with a negative spread (such as on an axis entirely below zero) and unknown noise raise ValueError. The opacity is that given, cut to [0, 1], else one for up to 100 points and 10 / sqrt(n) beyond; sizes lie between 5 and 100, except with fancy, where they grow by 2/3 for every standard deviation from the median. False: the returned extent is not that of the points drawn, but lacks the shift.", "quantifier": "for all data, limits, spreads, baselines, shifts and random numbers", "why_tests_cant": "Random ordinates for all data; tests only check that something is drawn.", "anchors": ["kalepy/plot.py: carpet", "kalepy/plot.py: _scatter_alpha", "kalepy/utils.py: minmax"]}
{"id": "C117", "title": "Quantiles along an axis", "statement": "quantiles with axis=-1 returns one row for each line of the array (C order), each the weighted quantiles of that line. False for other axes: the sums of the weights are aligned with the wrong axis, so unless every axis from the given one on has the length of the next one (or that is one) it raises ValueError; if the lengths agree, the result is right without weights and wrong with weights.", "quantifier": "for all arrays of any number of dimensions, weights, fractions and axes", "why_tests_cant": "A test uses one shape; the wrong alignment is only accepted, silently, for square shapes.", "anchors": ["kalepy/utils.py: quantiles"]}
{"id": "C118", "title": "Parameters counted from the end", "statement": "Negative numbers in keep of resample and, for several parameters, in params of density count from the last parameter; numbers out of range raise IndexError. With a single parameter params may only be 0: -1 raises ValueError. keep=[True, False] is not a selection: one True among booleans keeps all parameters (the samples are copies of data points), and without True nothing is kept; together with boundaries booleans raise TypeError.", "quantifier": "for every kernel, data set, keep and params argument and all random numbers", "why_tests_cant": "All numbers and lengths; an array indexed by a numpy boolean silently means the whole array.", "anchors": ["kalepy/kernels.py: Kernel._resample_clear", "kalepy/utils.py: cov_keep_vars", "kalepy/kde.py: KDE.density", "kalepy/kde.py: KDE.resample"]}
{"id": "C119", "title": "Kernel classes called directly", "statement": "evaluate and grid of the kernel classes return the normalised kernel (total one) at every point of an array of any shape, and at every combination of edges; grid without edges is a ValueError. inside, with coordinates along the first axis, is True exactly within the unit ball, which for Parabola and Triweight is where the kernel is positive; the Box is positive on the sphere, where inside is False. inside of a vector of two or more numbers or of a plain number is a ValueError although evaluate accepts them; inside of the Gaussian is always a TypeError. sample removes axes of length one in one dimension or with squeeze=True, so sample(1) has no axes.", "quantifier": "for every kernel class, array, list of edges and all random numbers", "why_tests_cant": "All shapes and all positions; the total of the kernel is an integral.", "anchors": ["kalepy/kernels.py: _Distribution.evaluate", "kalepy/kernels.py: _Distribution.grid", "kalepy/kernels.py: _Distribution.sample", "kalepy/kernels.py: _inside_unit_nball", "kalepy/kernels.py: Gaussian.inside"]}
{"id": "C120", "title": "Noise follows the kernel in one dimension only", "statement": "The random displacements used by resample are meant to be distributed like the kernel. In one dimension they are: for every continuous function its mean over the random numbers equals its mean under the kernel (Triweight: up to the spacing of the table). In several dimensions they are not: each coordinate of the Parabola noise follows the one-dimensional kernel, with variance 1/5 instead of 1/(n+4); the mean square length of the Triweight noise is 1/9 instead of n/(n+8); Box has the right mean square length but a smaller mean fourth power, because the radius is drawn separately for each coordinate.", "quantifier": "for every number of dimensions, every continuous function, all normal deviates", "why_tests_cant": "A distribution is compared with a density; a test with samples has statistical error and cannot tell small differences.", "anchors": ["kalepy/kernels.py: Box._sample", "kalepy/kernels.py: Parabola._sample", "kalepy/kernels.py: Triweight._sample", "kalepy/kernels.py: Kernel._resample_clear"]}
{"id": "C121", "title": "Warnings about the kernel matrix", "statement": "KDE logs nothing about the kernel matrix unless some element off the diagonal exceeds 1e-8 in size; then it warns (and recommends rescaling) exactly if the sizes of a diagonal and an off-diagonal element above 1e-20 differ by a factor of 1e5 or more. Uncorrelated parameters of very different scale give no warning. The message that all elements are below 1e-10 can never appear, since such matrices are passed over before. Although it is about ratios, the warning depends on the units of the data: the same data multiplied by a constant may warn or not.", "quantifier": "for every data set, weights, bandwidth and covariance", "why_tests_cant": "Thresholds over all matrices; a message that never appears cannot be found by running cases.", "anchors": ["kalepy/kde.py: KDE._finalize", "kalepy/kde.py: KDE.__init__"]}
{"id": "C122", "title": "Samples of arrays as text", "statement": "array_str(data, num) shows all numbers if num is None or 2 num is at least their count, else the first num, dots, and the last num. num=0 shows dots followed by all numbers, and a negative num cuts off the ends and shows the middle twice. stats with sample=0 therefore prints the whole array, with a sample of a two-dimensional array or of a number it raises TypeError, and with nothing requested ValueError.", "quantifier": "for all arrays, lengths, shapes and num", "why_tests_cant": "All lengths and num; slices with -0 look right for every positive num.", "anchors": ["kalepy/utils.py: array_str", "kalepy/utils.py: stats"]}
{"id": "C123", "title": "Summaries of arrays as text", "statement": "stats_str lists the weighted quantiles at the given fractions (0% the smallest number, 100% the largest), in a format chosen by the sizes of the smallest and largest nonzero numbers: exponents if one is below 0.01 or above 100, else two decimals. False: for integer data the quantiles are cut to integers (median of 1 and 2 shown as 1); average and standard deviation ignore the weights; small numbers between a negative and a positive end are shown as 0.00. stats shows the quantiles 0%, 16%, 50%, 84% and 100%. percs=None raises TypeError, a fraction outside [0, 1] AssertionError, no data ValueError.", "quantifier": "for all data, weights, fractions and formats", "why_tests_cant": "All data; the formats depend on sizes, and quantiles are silently cut for integer types.", "anchors": ["kalepy/utils.py: stats_str", "kalepy/utils.py: _guess_str_format_from_range", "kalepy/utils.py: quantiles"]}
{"id": "C124", "title": "Jagged nested lists", "statement": "With numpy before 1.24 isjagged is True exactly for nested lists without a shape, provided every list has two or more entries; with an empty list or lists of one entry it can be False for a jagged list, such as [[1, 2], []]. With later numpy it raises ValueError for every jagged list. jshape is the shape of a regular list, with any numpy; for rows of different lengths it is the number of rows with the length of each, unless there happen to be as many numbers as rows, when it is the same as for a plain list.", "quantifier": "for all nested lists of any depth and lengths", "why_tests_cant": "Infinitely many shapes; counting numbers only misses jagged lists whose count happens to agree.", "anchors": ["kalepy/utils.py: isjagged", "kalepy/utils.py: jshape", "kalepy/utils.py: flatlen", "kalepy/utils.py: really1d"]}
{"id": "C125", "title": "Recognising integers", "statement": "isinteger of a list of integers is True exactly if it is not empty and all fit in signed 64 bits, or all are from 2^63 up to 2^64; a single integer is recognised from -2^63 up to 2^64. Any float, complex number, string or None in the list gives False; booleans alone give False, together with an integer True. With iterable=False only scalars are recognised. So 2^64 and [0, 2^63] are not integers.", "quantifier": "for all integers and all lists", "why_tests_cant": "All integers; the type numpy picks changes at 2^63 and 2^64.", "anchors": ["kalepy/utils.py: isinteger"]}
{"id": "C126", "title": "Running in notebooks", "statement": "run_if_notebook calls the function in a notebook, run_if_script without IPython; elsewhere the alternative if given, else nothing is called; nbshow shows the figures in a notebook and closes them otherwise. False in other front ends of IPython (whose class is named neither like a notebook nor like a terminal, such as Google Colab): all of them raise AttributeError.", "quantifier": "for every front end and target", "why_tests_cant": "All names of front ends; tests run in one environment.", "anchors": ["kalepy/utils.py: run_if", "kalepy/utils.py: run_if_notebook", "kalepy/utils.py: run_if_script", "kalepy/utils.py: _python_environment", "kalepy/plot.py: nbshow"]}
{"id": "C127", "title": "Bins", "statement": "bins(a, b, num) returns num evenly spaced edges from a to b, the num - 1 midpoints between neighbours and the widths, all equal to (b - a) / (num - 1) and adding up to b - a, also for b < a. num of 0 or 1 is a RuntimeError, negative num a ValueError.", "quantifier": "for all a, b and num", "why_tests_cant": "All real ends and numbers of edges.", "anchors": ["kalepy/utils.py: bins", "kalepy/utils.py: midpoints"]}
{"id": "C128", "title": "Samples follow the density", "statement": "A sample drawn by resample without boundaries has the law whose density pdf returns: with a data point chosen by its weight and the kernel's random numbers, the mean of any quantity over the samples is its integral against pdf. True for the Gaussian kernel in any number of parameters (so the samples have the mean of the data and its covariance plus the kernel matrix), for the box and parabola kernels with one parameter, and for the triweight kernel with one parameter up to the spacing of its table. False with several parameters for the parabola kernel: its first coordinate has variance M00/5 about the data instead of M00/(n+4).", "quantifier": "for every dataset, weights, kernel matrix, quantity and number of parameters; failure for every parabola KDE of two or more parameters", "why_tests_cant": "A statement about laws; a test sees finitely many samples and cannot separate close distributions.", "anchors": ["kalepy/kernels.py: Kernel.resample", "kalepy/kernels.py: Kernel._resample_clear", "kalepy/kernels.py: Gaussian.sample", "kalepy/kde.py: KDE.resample", "kalepy/kde.py: KDE.density"]}
{"id": "C129", "title": "Contours of data enclose the fraction of the data", "statement": "contour(data, edges, weights, quantiles) draws for each fraction q the level such that the bins denser than it hold at most q of the weight, while adding the next bin in order of density exceeds q. True (without smoothing or upsampling) for bins of equal area and no padding, or padding when some bin is empty. False for bins of different areas, because the levels are found from sums of densities and not of weights, and with padding when no bin is empty, because the padding repeats the lowest density and is counted.", "quantifier": "all increasing edges, all data and non-negative weights with some weight in the grid, all lists of fractions, all paddings", "why_tests_cant": "the fraction enclosed depends on every bin and on ties; tests compare pictures or a few levels", "anchors": ["kalepy/plot.py: contour", "kalepy/plot.py: draw_contour2d", "kalepy/plot.py: _dfm_levels", "kalepy/plot.py: _pad_hist"]}
{"id": "C130", "title": "Linear changes of the parameters", "statement": "With one bandwidth for all parameters (default, rule name or number) and the estimated covariance, replacing every data point x by G x + t (G invertible) changes the density at G x + t to the density at x divided by |det G|: units, offsets, rotated, exchanged and combined parameters give the same distribution, whatever the kernel and weights, and the same errors. With diagonal=True this is false: adding one parameter to another gives another density.", "quantifier": "all dimensions, data, weights, kernels, one bandwidth (with scalar rescaling), all invertible matrices and shifts, all evaluation points", "why_tests_cant": "relates two runs on different data over all matrices; floating-point tests can only compare a few", "anchors": ["kalepy/kde.py: KDE.__init__", "kalepy/kde.py: KDE._set_bandwidth", "kalepy/kernels.py: Kernel.__init__", "kalepy/kernels.py: Kernel.density"]}
{"id": "C131", "title": "The density is continuous in the evaluation point", "statement": "For the Gaussian, parabola and triweight kernels the values of density/pdf at two evaluation points differ arbitrarily little when the points are close enough, for all or for selected parameters. With reflecting boundaries this holds among points on the same side of the boundaries, including boundary points approached from inside, and in a full neighbourhood of every point that is not on a boundary; at a boundary the density jumps. The box kernel is piecewise constant: constant near every point not on the surface of a kernel, with jumps there.", "quantifier": "all data, weights, bandwidths, kernels, boundaries (stored or given), all evaluation points and tolerances", "why_tests_cant": "a statement for every tolerance and neighbourhood; tests evaluate finitely many points", "anchors": ["kalepy/kernels.py: Kernel.density", "kalepy/kernels.py: _evaluate_numba", "kalepy/kernels.py: Gaussian", "kalepy/kernels.py: Box", "kalepy/kernels.py: Parabola", "kalepy/kernels.py: Triweight", "kalepy/kde.py: KDE.density"]}
{"id": "C132", "title": "Merged data sets", "statement": "With a given covariance and a bandwidth of numbers (or a given neff) the kernel does not depend on the data: the density of the merged data sets is the sum of the two densities and the pdf is their mean weighted by the total weights, with any boundaries and selected parameters, and with the same errors. With the estimated covariance this is false even for a bandwidth given as a number, because the bandwidth multiplies the covariance of the data.", "quantifier": "all pairs of data sets, weights, kernels, boundaries, parameters, evaluation points", "why_tests_cant": "relates three objects for arbitrary data; tests fix the data", "anchors": ["kalepy/kde.py: KDE.__init__", "kalepy/kde.py: KDE._set_bandwidth", "kalepy/kernels.py: Kernel.density", "kalepy/kde.py: KDE.density"]}
{"id": "C133", "title": "Samples with kept parameters", "statement": "resample(keep=...) with the Gaussian kernel: the kept parameters are exactly those of the data points chosen by weight; every quantity of the other parameters has, over the samples, the mean it has under the pdf, so the others follow the marginal distribution; given the chosen point the other parameters follow the kernel around it. The covariance of two parameters gains the entry of the kernel matrix only if neither is kept, so a kept parameter is less spread than under the pdf.", "quantifier": "all data, weights, positive definite kernel matrices, lists of kept parameters, all integrable quantities; independent standard normal numbers", "why_tests_cant": "a statement about the distribution of random output; tests look at finitely many samples", "anchors": ["kalepy/kernels.py: Kernel._resample_clear", "kalepy/kde.py: KDE.resample", "kalepy/utils.py: add_cov"]}
{"id": "C134", "title": "Accuracy of the cumulative distribution", "statement": "For one-dimensional data cdf(x) on a grid of points with spacing at most h differs from the probability that the pdf gives to the interval from the first grid point to x, divided by the probability P of the whole grid, by at most 2 h p / P, where p is the largest value of the kernel (taken once more for every boundary); it converges as the grid is refined, for every kernel, with and without boundaries. The probability of everything up to x is missed by at most 1 - P more, and by nothing more for finite kernels on a grid between the extrema. False without these terms: for Gaussian kernels cdf is 1 at the end of every grid though probability lies beyond, and on a grid that steps over finite kernels cdf is not a number.", "quantifier": "all one-dimensional data, weights, kernels, bandwidths, boundaries, increasing grids (within the boundaries) and points of the grid", "why_tests_cant": "a bound against an exact integral, for all grids; tests compare with another numerical integral at a few points", "anchors": ["kalepy/kde.py: KDE.cdf", "kalepy/utils.py: cumtrapz", "kalepy/utils.py: trapz_dens_to_mass"]}
{"id": "C135", "title": "The density is highest among the data", "statement": "Without boundaries, for every kernel, number of parameters, weights and bandwidth: whatever the point x, there is a weighted mean of the data points (a point of their convex hull) where density and pdf are at least as high as at x; for Gaussian kernels strictly higher when x is not itself such a mean, so every maximum lies among the data. Beyond any plane that has all the data on one side the density falls along the direction that the kernel matrix makes of the normal; in one dimension it is monotone on both sides of the data. False when only one of several correlated parameters moves away from all the data (the density can rise), and with boundaries (it can be highest where there are no data).", "quantifier": "all data, weights, kernels, bandwidths, numbers of parameters, evaluation points and planes", "why_tests_cant": "an inequality between values at all points of space, with the best point existing but not computed", "anchors": ["kalepy/kernels.py: _evaluate_numba", "kalepy/kernels.py: Distribution", "kalepy/kde.py: KDE.density"]}
{"id": "C136", "title": "Labels and ticks of corner plots", "statement": "Corner(D, labels=..., ticks=...) succeeds exactly when labels and ticks are not given or have at least D entries (IndexError otherwise, also for given axes with more rows than parameters). A label stands only along an axis showing its parameter and every parameter is labelled at some visible panel; the ticks of every axis are those given for its parameter, axes of densities keep automatic ones; the visible panels are those on and below the diagonal; labels of the last row and first column are on the side of the origin; for every D, rotation and origin. False: that grid=False (or a style for the lines) takes effect; __init__ switches the lines on in every visible panel.", "quantifier": "all numbers of parameters, rotations, origins, labels, ticks and panels", "why_tests_cant": "statement about every panel of plots of every size and all list lengths", "anchors": ["kalepy/plot.py: Corner.__init__"]}
{"id": "C137", "title": "Figures of corner plots", "statement": "Corner without fig makes a new figure, of the given figsize or else square with four inches per parameter between 6 and 20, with the given spacing (0.1 by default), and changes no other figure. With fig given, figsize is a TypeError. False: that the spacing is set on the given figure; it is set on pyplot's current figure, so that another figure changes and the given one keeps its spacing.", "quantifier": "all states of pyplot, numbers of parameters, sizes and spacings", "why_tests_cant": "depends on global state left by earlier calls", "anchors": ["kalepy/plot.py: _figax"]}
{"id": "C138", "title": "Slope and maxima of the density", "statement": "Without boundaries density and pdf have a slope along every line, given by the derivative of the kernel profile: everywhere for Gaussian and triweight kernels, off the edges of the kernels for the others. At every local maximum (all kernels but the box, any number of parameters) each parameter is the mean of that parameter of the data, weighted by the weights times the fall of the kernel profile at each point (the mean-shift equation), and these weights are positive where the density is; from any point the step towards this mean, and as far again beyond it, never lowers the density. False at the edge of a parabola: no slope there.", "quantifier": "all data, weights, kernels, bandwidths, numbers of parameters, points and directions", "why_tests_cant": "derivatives and maxima are about infinitely many points; finite differences only approximate them", "anchors": ["kalepy/kernels.py: _evaluate_numba", "kalepy/kernels.py: Distribution", "kalepy/kde.py: KDE.density"]}
{"id": "C139", "title": "Components of two-dimensional plots", "statement": "A call of dist2d that succeeds draws the points, median lines, histogram and contours that are asked for, once each and nothing else but the region masking dense points, which is there by default if points and contours are drawn and never if mask_dense is False. That region ends exactly at the outermost contour and lies above the points and below histogram, contours and medians. The points are data, as many as asked for and none twice, opaque up to a hundred of them; the vertical line is the median of the first parameter, the horizontal one of the second. The handle returned is the histogram, else the points, else the second contour: so a single contour without points and histogram ends in an IndexError after it was drawn.", "quantifier": "all data, weights, edges, KDEs, fractions and combinations of components", "why_tests_cant": "the combinations of components, masks and fractions cannot be enumerated; what is drawn is only checked by eye", "anchors": ["kalepy/plot.py: dist2d", "kalepy/plot.py: draw_scatter", "kalepy/plot.py: _scatter_limit", "kalepy/plot.py: draw_contour2d"]}
{"id": "C140", "title": "Contour lines", "statement": "Every contour line drawn with an outline has one twice as wide as itself, and line and outline over each other have the opacity asked for, for one width or one width per line; without outline there is none. With a list of widths of another length all outlines have width 3 and a line can cover its outline. The lines drawn are those of the levels if they increase strictly and one of them lies inside the range of the values; if none does, one line at the lowest value is drawn instead: so for fractions all smaller than the share of the densest bin the line encloses almost everything. Two fractions with the same level end in a ValueError if a third one has a level inside, arrays of less than two by two entries in a TypeError, and an outline other than True and False in a ValueError after the lines are drawn.", "quantifier": "all histograms, edges, levels, fractions, widths and opacities", "why_tests_cant": "whether levels coincide depends on the data; tests do not look at widths and opacities of what is drawn", "anchors": ["kalepy/plot.py: draw_contour2d", "kalepy/plot.py: _get_outline_effects", "kalepy/plot.py: _dfm_levels", "kalepy/plot.py: _prep_hist"]}
{"id": "C141", "title": "Vanishing and growing bandwidths", "statement": "Constructing the same KDE with ever smaller numbers as bandwidth, the density goes to zero at every point that is not a datum of positive weight and beyond every bound at those that are; in one dimension the probability of any interval whose ends are not data tends to the share of the weight of the data inside it. With growing bandwidth the density goes to zero, uniformly in the point. One normalisation serves all bandwidths: it is scaled by the bandwidth to the power of the number of parameters.", "quantifier": "all data, weights, kernels, dimensions, covariances and points; all bandwidths below or above some bound", "why_tests_cant": "limits: no finite set of bandwidths shows them", "anchors": ["kalepy/kde.py: KDE.__init__", "kalepy/kde.py: KDE._set_bandwidth", "kalepy/kernels.py: Kernel.__init__", "kalepy/kernels.py: Kernel.density"]}
{"id": "C142", "title": "Stability of the density", "statement": "For a fixed kernel: moving the data, each by at most delta in units of the kernel (Mahalanobis distance), and the evaluation point by some distance changes the density anywhere by at most twice the height of a single kernel times delta plus that distance, for all kernels but box, whose density can jump by its full height for arbitrarily small moves. Replacing one datum by any other, or leaving it out, changes the pdf by at most the share of its weight times the height of a kernel, and other weights by at most the sum of the changes of the shares times that height: outliers have bounded influence.", "quantifier": "all data, weights, dimensions, kernels (box only in the statements on influence), kernel matrices, evaluation points", "why_tests_cant": "bounds for all displacements and all data", "anchors": ["kalepy/kde.py: KDE.density", "kalepy/kernels.py: Kernel.density", "kalepy/kernels.py: _evaluate_numba"]}
{"id": "C143", "title": "Automatic grids and units", "statement": "Quantiles, the extrema of a KDE (automatic covariance) and the edges chosen without a bandwidth (as the plotting functions do) follow any change of units and zero point of the data, per dimension, including the number of edges; moving the data moves KDE.points. KDE.points itself does not follow a change of units: the bandwidth factor, which has no units, is compared with widths in units of the data, so the same data in small enough units always get 201 points per dimension and in large enough units the grid chosen without bandwidth (refuted by two data that get at most 26 and 201 points), although the density is the same function.", "quantifier": "all data, weights, dimensions, kernels, bandwidths, boundaries, changes of units, requests for edges", "why_tests_cant": "equivariance for all data and all factors; thresholds exist for every data set", "anchors": ["kalepy/utils.py: _guess_edges", "kalepy/utils.py: _get_edges_1d", "kalepy/utils.py: parse_edges", "kalepy/utils.py: quantiles", "kalepy/utils.py: iqrange", "kalepy/kde.py: KDE.points", "kalepy/kde.py: KDE.extrema"]}
{"id": "C144", "title": "What the points argument means", "statement": "For every points argument of KDE (and edges argument of parse_edges): None gives 3 to 200 equal bins over the extrema in every dimension, an integer k that number of bins (0: one point, -1: none, less: ValueError), a floating point number a TypeError, one sequence per dimension is taken as it is, a flat sequence is used in all dimensions, any other number of sequences is a ValueError; the first dimension with an error decides. A flat sequence with exactly as many entries as there are dimensions is read as numbers of bins instead: the given points are not used, and floating point entries raise TypeError. With points=0 and data given as a vector the points are a single number.", "quantifier": "all arguments (None, integers, floats, flat and nested sequences, None inside), data, dimensions, bandwidths", "why_tests_cant": "classification of all arguments, with uniqueness of the meaning", "anchors": ["kalepy/utils.py: parse_edges", "kalepy/utils.py: _get_edges_1d", "kalepy/utils.py: really1d", "kalepy/utils.py: _ndim", "kalepy/kde.py: KDE.points"]}
{"id": "C145", "title": "Slope of the density at reflecting boundaries", "statement": "With boundaries in one dimension that is not correlated with the others, the density inside is the one without boundaries plus its images in the boundaries. With one boundary it therefore leaves the boundary level (slope zero), for every kernel wherever the unreflected density has a slope. With two boundaries it leaves each with the slope of the image in the other one: level for finite kernels if that image is out of reach, but for a Gaussian kernel and data between the boundaries always rising. If the dimension is correlated with another one the density need not be level even with one boundary, as the images keep the orientation of the kernel.", "quantifier": "all data, weights, kernels, bandwidths, dimensions, boundary positions and boundary points", "why_tests_cant": "one-sided derivatives for all inputs; numerical differences have step size errors and cannot distinguish small slopes from zero", "anchors": ["kalepy/kernels.py: Kernel.density", "kalepy/kde.py: KDE.density"]}
{"id": "C146", "title": "Law of grid samples", "statement": "For uniform random numbers the mean of any continuous function of a coordinate of a sample is the sum over the bins of the share of their mass times the mean of the function within the bin. Within a bin the density is uniform without interpolation, and linear with it; the slope is the difference of the mean densities on the two sides relative to the mean of all grid densities. The linear density is normalised and moves the mean position by a twelfth of the slope. Slopes above two in size leave out a part of the bin, so parts of the grid with positive density can never be drawn. Samples come ordered by the mass of their bin, so the first samples of a set are not a fair subset.", "quantifier": "all grids, masses, dimensions, coordinates, continuous functions and random numbers", "why_tests_cant": "expectation values for all inputs; sampling tests only estimate them with random errors", "anchors": ["kalepy/sample.py: Sample_Grid.sample", "kalepy/sample.py: _intrabin_linear_interp"]}
{"id": "C147", "title": "Symmetric data", "statement": "If a linear change of the parameters (a mirror, an exchange of parameters, a rotation, ...) only changes the order of the weighted data, the density takes the same values at points related by it. In one dimension half of the probability is then on each side of the mirror. The quantiles of mirrored numbers are the mirrored quantiles at the opposite fractions, and the median of symmetric numbers is their centre, provided equal numbers have equal weights.", "quantifier": "all data, weights, kernels, bandwidth arguments, symmetries, fractions and sorting orders", "why_tests_cant": "equalities for all inputs; tests on symmetric samples see one data set and rounding errors", "anchors": ["kalepy/kde.py: KDE.density", "kalepy/utils.py: quantiles"]}
{"id": "C148", "title": "Means over grid samples and outliers", "statement": "For any continuous function of a coordinate, the mean over the random positions of its sum over all n samples of a grid is a sum over the n random numbers that choose the bins, each of which has the law of a single sample: sorting the random numbers does not matter. The samples of weight one of sample_outliers follow the same law with each bin's share of the mass not above the threshold, with or without Poisson draws. If every bin is above the threshold nothing is random and the weighted points have exactly the total mass and first moments of the density interpolated between the grid points.", "quantifier": "all grids in any number of dimensions, densities, masses, thresholds, numbers of samples, functions and random numbers", "why_tests_cant": "means over all random numbers; tests see finite samples", "anchors": ["kalepy/sample.py: Sample_Grid.sample", "kalepy/sample.py: Sample_Outliers.sample"]}
{"id": "C149", "title": "Units and stability of quantiles", "statement": "Quantiles, median lines and confidence bands follow a change of units of the numbers (if equal numbers have equal weights). Without weights larger numbers have larger quantiles, and moving every number by at most delta moves every quantile, the median line and the bands by at most delta. With weights both fail: arbitrarily small movements that exchange two numbers change a quantile by more than half of the range, and whole weights do not act as repeat counts.", "quantifier": "all numbers, weights, fractions, units, movements and sorting orders", "why_tests_cant": "bounds for all movements; a test sees one perturbation of one sample", "anchors": ["kalepy/utils.py: quantiles", "kalepy/plot.py: confidence"]}
{"id": "C150", "title": "Mean and variance with a boundary", "statement": "For 1-D data and one reflecting boundary, the averages over the density of all quantities symmetric about the boundary are unchanged by the boundary; in particular the mean square distance from it is that of the data plus the variance of the kernel. The mean is moved away from the boundary compared to the mean of the data, always for the Gaussian kernel, and not at all if the kernel has finite support and no data is within its width of the boundary. The variance is not increased.", "quantifier": "all data, weights, bandwidths, kernels and positions of the boundary, below or above", "why_tests_cant": "integrals over the line of a density; a test sees samples of it", "anchors": ["kalepy/kde.py: KDE.density", "kalepy/kde.py: KDE.pdf", "kalepy/kernels.py: Kernel.density", "kalepy/kernels.py: _evaluate_numba"]}
{"id": "C151", "title": "Contours in other units", "statement": "Contours of data with given edges are the same picture in any units of the two coordinates (densities and levels are divided by the product of the scales, the padding follows), transposed with the same levels when the coordinates are exchanged, and depend neither on the order of the points nor on a common factor of the weights. The levels do not depend continuously on the histogram: arbitrarily small changes can double a level.", "quantifier": "all data, weights, edges, fractions, padding, scales and offsets", "why_tests_cant": "for all units and orders; a test compares one pair of plots", "anchors": ["kalepy/plot.py: contour", "kalepy/plot.py: draw_contour2d", "kalepy/plot.py: _prep_hist", "kalepy/plot.py: _pad_hist", "kalepy/plot.py: _dfm_levels"]}
{"id": "C152", "title": "Cumulative distribution in other units", "statement": "KDE.cdf on a given grid has the same value (or is not a number, or raises the same exception) in any units of the coordinates, with or without boundaries, in any number of dimensions, inside and outside the grid. Moving the data changes nothing even on the automatic grid. The value depends neither on the order of the data nor on a common factor of the weights, and with a given covariance whole weights are repetitions.", "quantifier": "all data, weights, kernels, bandwidths, boundaries, grids, points, scales and offsets", "why_tests_cant": "for all units, orders and points; a test compares single values", "anchors": ["kalepy/kde.py: KDE.cdf", "kalepy/kde.py: KDE.density", "kalepy/utils.py: cumtrapz"]}
{"id": "C153", "title": "Cumulative distribution of mirrored data", "statement": "In one dimension the cumulative distribution of mirrored data on the mirrored grid is one minus that of the data, inside and outside the grid; for symmetric data on a symmetric grid the values at mirrored points add up to one, and the value at the centre is one half. With two parameters exchanged, KDE.cdf has the same value at the exchanged point of the exchanged grid.", "quantifier": "all data, weights, kernels, bandwidth factors, grids and points", "why_tests_cant": "for all data and grids; a test compares single values", "anchors": ["kalepy/kde.py: KDE.cdf", "kalepy/kde.py: KDE.density", "kalepy/utils.py: cumtrapz"]}
{"id": "C154", "title": "Samples in other units", "statement": "With the same random numbers, a KDE of data in other units (every parameter scaled by a positive factor and shifted, boundaries likewise) returns the samples of the original KDE in those units, one by one, or the same error; for every size, keep and chunk, with the boundaries given to KDE or with reflect=False.", "quantifier": "all data, weights, kernels, bandwidths, boundaries, units and random numbers", "why_tests_cant": "for all random numbers and units; a seeded test compares single samples", "anchors": ["kalepy/kde.py: KDE.resample", "kalepy/kernels.py: Kernel.resample", "kalepy/kernels.py: Kernel._resample_clear", "kalepy/kernels.py: Kernel._resample_reflect"]}
{"id": "C155", "title": "Grid samples in other units", "statement": "With the same random numbers, Sample_Grid for edges in other units (every dimension scaled by a positive factor and shifted) and the density per unit volume in those units returns the samples in those units, one by one, or the same error, with given or computed masses, with or without interpolation; likewise Sample_Outliers, with the same weights. With given masses the unit of the density does not matter. Interpolated scalar values do depend on the units.", "quantifier": "all grids, densities, masses, units, numbers of samples and random numbers", "why_tests_cant": "for all grids and random numbers; a seeded test compares single samples", "anchors": ["kalepy/sample.py: Sample_Grid", "kalepy/sample.py: Sample_Grid.sample", "kalepy/sample.py: _intrabin_linear_interp", "kalepy/sample.py: Sample_Outliers.sample", "kalepy/utils.py: trapz_dens_to_mass", "kalepy/utils.py: centroids"]}
{"id": "C156", "title": "Symmetric data with boundaries", "statement": "If the weighted data are symmetric about a value in one dimension, a single reflecting boundary at that value gives exactly twice the unreflected density inside and zero outside, whichever side is inside; two boundaries symmetric about that value give a symmetric density. Mirroring any data in one dimension together with the boundaries of that dimension mirrors the density, whatever the boundaries of the other dimensions are.", "quantifier": "all symmetric data and weights, dimensions, kernels, bandwidths and points; all data, mirrored", "why_tests_cant": "for all symmetric data and points; a test compares a few points for one data set", "anchors": ["kalepy/kde.py: KDE.density", "kalepy/kernels.py: Kernel.density", "kalepy/kernels.py: _evaluate_numba"]}
