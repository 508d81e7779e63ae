{
 "claims": [
  {
   "property": "C01",
   "status": "proved",
   "theorems": [
    "C01_density_textbook",
    "C01_not_posdef_raises"
   ],
   "note": "Full statement over exact reals for any dimension; the normalisation is shown to be the integral of the profile."
  },
  {
   "property": "C02",
   "status": "proved",
   "theorems": [
    "C02_density_nonneg",
    "C02_density_bounded"
   ],
   "note": "Non-negativity for every option including reflection and params; bound for the un-reflected density."
  },
  {
   "property": "C03",
   "status": "proved",
   "theorems": [
    "C03_order_irrelevant",
    "C03_order_irrelevant_unweighted",
    "C03_order_irrelevant_summary"
   ],
   "note": "Density for every option, with and without weights; also neff, kernel matrix and extrema."
  },
  {
   "property": "C04",
   "status": "proved",
   "theorems": [
    "C04_weight_scaling",
    "C04_neff_scaling"
   ],
   "note": "Density and pdf for every option, and neff."
  },
  {
   "property": "C05",
   "status": "proved",
   "theorems": [
    "C05_integer_weights_are_repeats",
    "C05_default_bandwidth_refuted"
   ],
   "note": "Positive half for a kernel matrix fixed by the user, for every option; the default construction is refuted by a concrete dataset."
  },
  {
   "property": "C06",
   "status": "proved",
   "theorems": [
    "C06_shift_and_units",
    "C06_shift_and_units_params"
   ],
   "note": "Shift and units together, with reflection, with and without params."
  },
  {
   "property": "C07",
   "status": "proved",
   "theorems": [
    "C07_kernels_normalised"
   ],
   "note": "All four kernels, every dimension, iterated improper integrals."
  },
  {
   "property": "C08",
   "status": "proved",
   "theorems": [
    "C08_integral_is_mass"
   ],
   "note": "Every dimension, both density and pdf."
  },
  {
   "property": "C09",
   "status": "proved",
   "theorems": [
    "C09_finite_support",
    "C09_zero_outside_extrema"
   ],
   "note": "Along each single dimension, and outside the automatic extrema."
  },
  {
   "property": "C10",
   "status": "proved",
   "theorems": [
    "C10_extrema_contain_data",
    "C10_gaussian_small_neff",
    "C10_default_excludes_data_refuted"
   ],
   "note": "norm.ppf enters through its specification as inverse of the normal distribution function, shown to be realisable."
  },
  {
   "property": "C11",
   "status": "proved",
   "theorems": [
    "C11_one_boundary_conserves",
    "C11_two_boundaries_finite_kernel",
    "C11_two_boundaries_gaussian_loses"
   ],
   "note": "One boundary holds for every kernel and needs no condition on the data; two boundaries finite kernels; Gaussian strictly loses mass."
  },
  {
   "property": "C12",
   "status": "proved",
   "theorems": [
    "C12_reflected_density",
    "C12_positive_outside_iff",
    "C12_zero_outside_last_dimension",
    "C12_zero_outside_any_dimension_refuted"
   ],
   "note": "The exact density at every point; zero for the last reflected dimension (hence in 1-D); for earlier dimensions the expectation is false, see the refuted theorem and the exact condition."
  },
  {
   "property": "C13",
   "status": "proved",
   "theorems": [
    "C13_far_from_boundary_unchanged",
    "C13_boundary_point_doubled"
   ],
   "note": "One-dimensional, both boundaries or one."
  },
  {
   "property": "C14",
   "status": "proved",
   "theorems": [
    "C14_accepted_entries",
    "C14_accepted_pair",
    "C14_accepted_true",
    "C14_no_reflection",
    "C14_rejected"
   ],
   "note": "Exact acceptance conditions in both directions for every argument shape, and which exception otherwise."
  },
  {
   "property": "C15",
   "status": "proved",
   "theorems": [
    "C15_true_encloses_iff_nonneg",
    "C15_true_accepted"
   ],
   "note": "Exact condition; False for negative data by the same equivalence."
  },
  {
   "property": "C16",
   "status": "proved",
   "theorems": [
    "C16_pair_true_number",
    "C16_pair_true_true",
    "C16_pair_true_none"
   ],
   "note": "Exact result for each combination."
  },
  {
   "property": "C17",
   "status": "proved",
   "theorems": [
    "C17_first_boundaries_reused",
    "C17_list_modified_refuted",
    "C17_no_true_not_modified"
   ],
   "note": "Constructor, density and resample; an accepted list with True is overwritten and fixed for all later data."
  },
  {
   "property": "C18",
   "status": "proved",
   "theorems": [
    "C18_kept_verbatim",
    "C18_keep_out_of_range"
   ],
   "note": "Every dimension, kernel, keep form with non-negative indices and every random outcome."
  },
  {
   "property": "C19",
   "status": "proved",
   "theorems": [
    "C19_keep_and_reflect_fails",
    "C19_disjoint_linalgerror",
    "C19_reflected_valueerror"
   ],
   "note": "Both exceptions, exact conditions."
  },
  {
   "property": "C20",
   "status": "proved",
   "theorems": [
    "C20_inside_and_count",
    "C20_result_or_runtimeerror",
    "C20_num_chunks",
    "C20_nothing_inside"
   ],
   "note": "Count, bounds, number of draws (each between 1 and chunk points), and the error cases."
  },
  {
   "property": "C21",
   "status": "proved",
   "theorems": [
    "C21_candidates_unreflected",
    "C21_follows_density_refuted"
   ],
   "note": "Candidates are un-reflected samples for data strictly inside; the distribution claim is refuted by one Box kernel."
  },
  {
   "property": "C22",
   "status": "proved",
   "theorems": [
    "C22_weights_validated"
   ],
   "note": "Over weights including NaN and infinities; numpy array and Python list."
  },
  {
   "property": "C23",
   "status": "proved",
   "theorems": [
    "C23_neff_bounds"
   ],
   "note": "For the constructed KDE; scaling is C04_neff_scaling."
  },
  {
   "property": "C24",
   "status": "proved",
   "theorems": [
    "C24_scott_factor",
    "C24_silverman_factor"
   ],
   "note": "All four facts over the reals."
  },
  {
   "property": "C25",
   "status": "proved",
   "theorems": [
    "C25_kernel_matrix",
    "C25_accepted_bandwidths",
    "C25_rejected_bandwidths"
   ],
   "note": "Kernel matrix for each accepted form; exact set of accepted arguments; kinds of exceptions. bw_rescale is None or a scalar."
  },
  {
   "property": "C26",
   "status": "proved",
   "theorems": [
    "C26_grid_pointwise",
    "C26_grid_error"
   ],
   "note": "Any number of dimensions and grid sizes; params given as a list or None."
  },
  {
   "property": "C27",
   "status": "proved",
   "theorems": [
    "C27_params_is_marginal",
    "C27_finite_kernel_refuted"
   ],
   "note": "Any split of the dimensions into selected and integrated ones; finite kernels refuted by a Box in two dimensions."
  },
  {
   "property": "C28",
   "status": "proved",
   "theorems": [
    "C28_params_permutation",
    "C28_params_one_dimension",
    "C28_params_int_is_list",
    "C28_params_accepted"
   ],
   "note": "All permutations; 1-D integer params; int is the one-element list."
  },
  {
   "property": "C29",
   "status": "proved",
   "theorems": [
    "C29_flat_points",
    "C29_row_points",
    "C29_param_points",
    "C29_number_point",
    "C29_resample_shape"
   ],
   "note": "Exact: the expected shape, the values, and the exception for a single point. sample_grid in one dimension: C55."
  },
  {
   "property": "C30",
   "status": "proved",
   "theorems": [
    "C30_from_hist",
    "C30_default_bandwidth",
    "C30_from_hist_1d",
    "C30_default_bandwidth_1d",
    "C30_listed_1d_fails"
   ],
   "note": "numpy arrays; the default bandwidth for a list of one vector of bins is shown to be an error."
  },
  {
   "property": "C31",
   "status": "proved",
   "theorems": [
    "C31_points_in_bins_refuted",
    "C31_points",
    "C31_too_few_edges",
    "C31_too_few_edges_nd"
   ],
   "note": "Refuted by a concrete histogram; exact positions for any edges and the IndexError."
  },
  {
   "property": "C32",
   "status": "proved",
   "theorems": [
    "C32_cdf_on_grid",
    "C32_cdf_gaussian",
    "C32_not_implemented"
   ],
   "note": "Any dimension; besides the claim the exact value at every grid node."
  },
  {
   "property": "C33",
   "status": "proved",
   "theorems": [
    "C33_outside_grid",
    "C33_outside_grid_gaussian",
    "C33_cdf_bounded_refuted"
   ],
   "note": "For every 1-D grid with mass in the outermost interval; concrete refutation."
  },
  {
   "property": "C34",
   "status": "proved",
   "theorems": [
    "C34_pdf_never_returns",
    "C34_pdf_typeerror",
    "C34_pdf_errors",
    "C34_density",
    "C34_resample"
   ],
   "note": "Exact: no call returns; which error. kalepy.density and resample are those of the KDE."
  },
  {
   "property": "C35",
   "status": "proved",
   "theorems": [
    "C35_names",
    "C35_unknown_names",
    "C35_other_arguments",
    "C35_only_valueerror"
   ],
   "note": "Strings of characters up to code 255."
  },
  {
   "property": "C36",
   "status": "proved",
   "theorems": [
    "C36_samples_in_support",
    "C36_parabola_refuted"
   ],
   "note": "Normal deviates assumed not all zero."
  },
  {
   "property": "C37",
   "status": "proved",
   "theorems": [
    "C37_cdf",
    "C37_inverse_at_knots",
    "C37_inverse_range",
    "C37_inverse_increasing",
    "C37_inverse_accuracy"
   ],
   "note": "Table of the code with its own length; accuracy bound included."
  },
  {
   "property": "C38",
   "status": "proved",
   "theorems": [
    "C38_near_a_data_point",
    "C38_inside_extrema"
   ],
   "note": "One dimension, finite kernels."
  },
  {
   "property": "C39",
   "status": "proved",
   "theorems": [
    "C39_mask",
    "C39_one_dim_complement",
    "C39_outside_is_complement_refuted",
    "C39_no_bounds_take",
    "C39_no_bounds_single"
   ],
   "note": "Exact mask in both modes for any number of (lower, upper) rows; the complement expectation refuted in two dimensions; without bounds the result is an integer array, and indexing with it repeats the second point."
  },
  {
   "property": "C40",
   "status": "proved",
   "theorems": [
    "C40_cumsum_all",
    "C40_all_indices",
    "C40_cumsum_axis",
    "C40_bad_axis"
   ],
   "note": ""
  },
  {
   "property": "C41",
   "status": "proved",
   "theorems": [
    "C41_mass_conserved",
    "C41_mass_nonneg",
    "C41_mass_is_integral",
    "C41_shape_mismatch"
   ],
   "note": "All axes; each mass is shown to be the integral of the multilinear density over its bin."
  },
  {
   "property": "C42",
   "status": "proved",
   "theorems": [
    "C42_cumtrapz",
    "C42_monotone",
    "C42_no_prepend",
    "C42_axis",
    "C42_axis_padded",
    "C42_axis_shape_wrong"
   ],
   "note": "Also the exact value of every entry; the shape for an axis argument."
  },
  {
   "property": "C43",
   "status": "proved",
   "theorems": [
    "C43_center_of_mass",
    "C43_inside_bin",
    "C43_empty_bin"
   ],
   "note": "Iterated Riemann integrals of the multilinear density."
  },
  {
   "property": "C44",
   "status": "proved",
   "theorems": [
    "C44_order",
    "C44_one_sided",
    "C44_accumulates",
    "C44_limit",
    "C44_stretch",
    "C44_positive",
    "C44_no_positive"
   ],
   "note": "Fold over any chunks; limit, stretch, positive."
  },
  {
   "property": "C45",
   "status": "proved",
   "theorems": [
    "C45_total",
    "C45_in_range",
    "C45_monotone",
    "C45_order_independent",
    "C45_weight_scale",
    "C45_weight_scale_ties",
    "C45_value_at_own_weight",
    "C45_unweighted",
    "C45_tie_order_refuted",
    "C45_errors"
   ],
   "note": "axis=None, positive weights; any sorting function. Rescaling is proved for distinct values and, with ties, for sorters that look at the values only."
  },
  {
   "property": "C46",
   "status": "proved",
   "theorems": [
    "C46_vector",
    "C46_too_short",
    "C46_axis",
    "C46_axis_order",
    "C46_bad_axis",
    "C46_log"
   ],
   "note": ""
  },
  {
   "property": "C47",
   "status": "proved",
   "theorems": [
    "C47_length",
    "C47_points",
    "C47_keeps_edges",
    "C47_increasing",
    "C47_zero_empty"
   ],
   "note": "log=False (log=True applies the same function to logarithms)."
  },
  {
   "property": "C48",
   "status": "proved",
   "theorems": [
    "C48_outcome",
    "C48_each_dimension",
    "C48_one_pair",
    "C48_params",
    "C48_extrema_filled_per_dimension",
    "C48_single_pair_shared",
    "C48_single_pair_refuted"
   ],
   "note": "All arguments made of None, booleans, numbers, lists and tuples of these. With a single pair containing None the expectation is refuted and the exact result proved. With params: arguments made of lists."
  },
  {
   "property": "C49",
   "status": "proved",
   "theorems": [
    "C49_whiten_inverts",
    "C49_color_inverts",
    "C49_unit_to_cov",
    "C49_own_cov_to_unit",
    "C49_not_posdef",
    "C49_default_cov"
   ],
   "note": "Symmetric matrices of any size; also the default covariance, which works for one and two dimensions only."
  },
  {
   "property": "C50",
   "status": "proved",
   "theorems": [
    "C50_points",
    "C50_wrong_count",
    "C50_repeated_access"
   ],
   "note": "Any sorting function in the quantiles; specifications None, number, vector. A plain vector with as many entries as dimensions (read as numbers of bins) is not modelled."
  },
  {
   "property": "C51",
   "status": "proved",
   "theorems": [
    "C51_samples_in_bins"
   ],
   "note": "Any dimension, interpolate or not, scalars or not; np.argsort is any function returning a sorting permutation."
  },
  {
   "property": "C52",
   "status": "proved",
   "theorems": [
    "C52_bins_by_mass"
   ],
   "note": "Row-major bins of any dimension; exact intervals of the (sorted) random numbers."
  },
  {
   "property": "C53",
   "status": "proved",
   "theorems": [
    "C53_inverse_transform",
    "C53_sample_positions"
   ],
   "note": "The formula, and the positions that the sampler returns."
  },
  {
   "property": "C54",
   "status": "proved",
   "theorems": [
    "C54_followed_iff",
    "C54_follows_density_refuted"
   ],
   "note": "Exact condition in one dimension and a concrete refutation."
  },
  {
   "property": "C55",
   "status": "proved",
   "theorems": [
    "C55_scalars_fail_iff",
    "C55_without_scalars"
   ],
   "note": "Exact condition for the error; without scalars the call is shown to succeed."
  },
  {
   "property": "C56",
   "status": "proved",
   "theorems": [
    "C56_weights_conserved",
    "C56_poisson",
    "C56_rejected"
   ],
   "note": "With and without Poisson draws; the centroids are those of C43."
  },
  {
   "property": "C57",
   "status": "proved",
   "theorems": [
    "C57_accepted_iff",
    "C57_rejected",
    "C57_one_edge",
    "C57_mass_shape"
   ],
   "note": "Exact acceptance condition without masses, the kinds of errors, and the shape of masses with the right number of dimensions (for others see C75)."
  },
  {
   "property": "C58",
   "status": "proved",
   "theorems": [
    "C58_union",
    "C58_kept",
    "C58_inside",
    "C58_total",
    "C58_size"
   ],
   "note": "Any history of plot_kde and plot_data calls; limits of each parameter given as pairs (one pair for all: C90). Floating-point data."
  },
  {
   "property": "C59",
   "status": "proved",
   "theorems": [
    "C59_given",
    "C59_data",
    "C59_switches",
    "C59_first",
    "C59_refuted"
   ],
   "note": "Refutation with an exact statement of what persists; calls with their own dictionaries, hist and plot_data are independent of the history."
  },
  {
   "property": "C60",
   "status": "proved",
   "theorems": [
    "C60_total",
    "C60_median",
    "C60_nested",
    "C60_range",
    "C60_weight",
    "C60_count",
    "C60_errors"
   ],
   "note": "Also the weight held by the bands, and for a single datum; order of argsort for ties arbitrary."
  },
  {
   "property": "C61",
   "status": "proved",
   "theorems": [
    "C61_levels",
    "C61_unique",
    "C61_encloses",
    "C61_monotone",
    "C61_reversed",
    "C61_zero",
    "C61_empty"
   ],
   "note": "Exact characterisation of each level; order, zero and empty histograms."
  },
  {
   "property": "C62",
   "status": "proved",
   "theorems": [
    "C62_sigma",
    "C62_quantile",
    "C62_increasing",
    "C62_outside",
    "C62_cases",
    "C62_round"
   ],
   "note": "In exact arithmetic; also what is used when one or both are not given."
  },
  {
   "property": "C63",
   "status": "proved",
   "theorems": [
    "C63_lines",
    "C63_spans",
    "C63_upper",
    "C63_lower",
    "C63_total",
    "C63_errors",
    "C63_unset"
   ],
   "note": "Exact set of marks drawn; errors."
  },
  {
   "property": "C64",
   "status": "proved",
   "theorems": [
    "C64_panel"
   ],
   "note": ""
  },
  {
   "property": "C65",
   "status": "proved",
   "theorems": [
    "C65_entries",
    "C65_counts",
    "C65_integral",
    "C65_integral_one",
    "C65_errors"
   ],
   "note": "Explicit edges (numpy automatic binning is not modelled)."
  },
  {
   "property": "C66",
   "status": "proved",
   "theorems": [
    "C66_outline",
    "C66_renormalize",
    "C66_hidden",
    "C66_total",
    "C66_mismatch"
   ],
   "note": "With nonzero, positive and renormalize; error cases."
  },
  {
   "property": "C67",
   "status": "proved",
   "theorems": [
    "C67_padding",
    "C67_prepared",
    "C67_padded"
   ],
   "note": "Any number of dimensions; also the shapes handed to the contour function."
  },
  {
   "property": "C68",
   "status": "proved",
   "theorems": [
    "C68_flatten_order",
    "C68_flatlen_agrees",
    "C68_flatlen_counts",
    "C68_flatlen_total",
    "C68_flatten_defined",
    "C68_flatten_defined_strict",
    "C68_really1d"
   ],
   "note": "Both numpy behaviours for jagged lists (flag strict); exact conditions under which flatten succeeds."
  },
  {
   "property": "C69",
   "status": "proved",
   "theorems": [
    "C69_linear",
    "C69_log",
    "C69_log_default",
    "C69_bad_scale"
   ],
   "note": ""
  },
  {
   "property": "C70",
   "status": "proved",
   "theorems": [
    "C70_kernel_caches",
    "C70_history",
    "C70_history_values"
   ],
   "note": "Kernel caches and the points and cdf caches of KDE; calls points, density and cdf."
  },
  {
   "property": "C71",
   "status": "proved",
   "theorems": [
    "C71_default_density_outcome"
   ],
   "note": "Exact trichotomy."
  },
  {
   "property": "C72",
   "status": "proved",
   "theorems": [
    "C72_no_weights_is_unit_weights"
   ],
   "note": "Every option."
  },
  {
   "property": "C73",
   "status": "proved",
   "theorems": [
    "C73_stored_boundaries_stable",
    "C73_per_call_equals_stored"
   ],
   "note": ""
  },
  {
   "property": "C74",
   "status": "proved",
   "theorems": [
    "C74_per_call_booleans",
    "C74_none_means_stored"
   ],
   "note": ""
  },
  {
   "property": "C75",
   "status": "proved",
   "theorems": [
    "C75_flat_mass"
   ],
   "note": ""
  },
  {
   "property": "C76",
   "status": "proved",
   "theorems": [
    "C76_no_mass"
   ],
   "note": "Without scalars."
  },
  {
   "property": "C77",
   "status": "proved",
   "theorems": [
    "C77_scalar_values",
    "C77_constant_scalar",
    "C77_scalar_is_density_refuted"
   ],
   "note": "scalar_mass not given."
  },
  {
   "property": "C78",
   "status": "proved",
   "theorems": [
    "C78_proportional_weights"
   ],
   "note": "Arrays of equal shapes, positive portion."
  },
  {
   "property": "C79",
   "status": "proved",
   "theorems": [
    "C79_flat_points_rejected",
    "C79_jagged_points_rejected"
   ],
   "note": ""
  },
  {
   "property": "C80",
   "status": "proved",
   "theorems": [
    "C80_unknown_keyword"
   ],
   "note": ""
  },
  {
   "property": "C81",
   "status": "proved",
   "theorems": [
    "C81_lower",
    "C81_refuted"
   ],
   "note": "Refutation of an expectation together with the direction of the difference."
  },
  {
   "property": "C82",
   "status": "proved",
   "theorems": [
    "C82_unweighted",
    "C82_count",
    "C82_refuted"
   ],
   "note": "Refutation of an expectation with an exact statement of what is drawn."
  },
  {
   "property": "C83",
   "status": "proved",
   "theorems": [
    "C83_off",
    "C83_none",
    "C83_scales"
   ],
   "note": ""
  },
  {
   "property": "C84",
   "status": "proved",
   "theorems": [
    "C84_mask_true",
    "C84_small_bins",
    "C84_refuted",
    "C84_number"
   ],
   "note": "Exact condition; the empty bins for small areas; refutation in general."
  },
  {
   "property": "C85",
   "status": "proved",
   "theorems": [
    "C85_argument",
    "C85_points"
   ],
   "note": ""
  },
  {
   "property": "C86",
   "status": "proved",
   "theorems": [
    "C86_reused",
    "C86_data"
   ],
   "note": ""
  },
  {
   "property": "C87",
   "status": "proved",
   "theorems": [
    "C87_loc",
    "C87_box",
    "C87_panel",
    "C87_outside"
   ],
   "note": ""
  },
  {
   "property": "C88",
   "status": "proved",
   "theorems": [
    "C88_accepts",
    "C88_refuses",
    "C88_places",
    "C88_distinct"
   ],
   "note": "Strings of characters up to code 255."
  },
  {
   "property": "C89",
   "status": "proved",
   "theorems": [
    "C89_hist",
    "C89_hist_draws",
    "C89_stored",
    "C89_stored_kde",
    "C89_given",
    "C89_kde",
    "C89_both",
    "C89_nothing"
   ],
   "note": "Weights as handed to dist1d and dist2d."
  },
  {
   "property": "C90",
   "status": "proved",
   "theorems": [
    "C90_all",
    "C90_two",
    "C90_extend",
    "C90_number"
   ],
   "note": ""
  },
  {
   "property": "C91",
   "status": "proved",
   "theorems": [
    "C91_aligned"
   ],
   "note": ""
  },
  {
   "property": "C92",
   "status": "proved",
   "theorems": [
    "C92_curve_and_bars",
    "C92_from_data",
    "C92_data_as_kde",
    "C92_bars_number",
    "C92_bins_where",
    "C92_bins_empty",
    "C92_bars_edges",
    "C92_params_total",
    "C92_kde_weights",
    "C92_other",
    "C92_carpet"
   ],
   "note": "Explicit edges; drawing itself (matplotlib) not modelled."
  },
  {
   "property": "C93",
   "status": "proved",
   "theorems": [
    "C93_hist1d",
    "C93_dist1d",
    "C93_weighted_kde"
   ],
   "note": ""
  },
  {
   "property": "C94",
   "status": "proved",
   "theorems": [
    "C94_number_of_bins"
   ],
   "note": ""
  },
  {
   "property": "C95",
   "status": "proved",
   "theorems": [
    "C95_list_data"
   ],
   "note": ""
  },
  {
   "property": "C96",
   "status": "proved",
   "theorems": [
    "C96_scaled",
    "C96_zero",
    "C96_false"
   ],
   "note": ""
  },
  {
   "property": "C97",
   "status": "proved",
   "theorems": [
    "C97_one_row"
   ],
   "note": ""
  },
  {
   "property": "C98",
   "status": "proved",
   "theorems": [
    "C98_three_or_more",
    "C98_two"
   ],
   "note": "Positions of the edges up to rounding."
  },
  {
   "property": "C99",
   "status": "proved",
   "theorems": [
    "C99_hidden",
    "C99_level"
   ],
   "note": "Documentation: \"True: mask empty bins\".  Histogram without smoothing."
  },
  {
   "property": "C100",
   "status": "proved",
   "theorems": [
    "C100_swapped",
    "C100_chosen"
   ],
   "note": ""
  },
  {
   "property": "C101",
   "status": "proved",
   "theorems": [
    "C101_bad_weights",
    "C101_good"
   ],
   "note": ""
  },
  {
   "property": "C102",
   "status": "proved",
   "theorems": [
    "C102_order",
    "C102_unit_median"
   ],
   "note": "Without fancy=True."
  },
  {
   "property": "C103",
   "status": "proved",
   "theorems": [
    "C103_contains",
    "C103_margin",
    "C103_margin_lost",
    "C103_prev",
    "C103_limit",
    "C103_log",
    "C103_positive",
    "C103_running_refuted"
   ],
   "note": ""
  },
  {
   "property": "C104",
   "status": "proved",
   "theorems": [
    "C104_density",
    "C104_resample",
    "C104_total",
    "C104_side",
    "C104_true_refuted",
    "C104_more_refuted",
    "C104_resample_refuted"
   ],
   "note": "The formula of the total is proved for a lower boundary; integer overflow is not modelled."
  },
  {
   "property": "C105",
   "status": "proved",
   "theorems": [
    "C105_grid",
    "C105_one",
    "C105_list",
    "C105_flat"
   ],
   "note": "The automatic points are an argument here; C50 is about them."
  },
  {
   "property": "C106",
   "status": "proved",
   "theorems": [
    "C106_data",
    "C106_list",
    "C106_boundaries",
    "C106_written",
    "C106_refuted"
   ],
   "note": "density and resample without reflect or params; a change keeps the number of points and dimensions."
  },
  {
   "property": "C107",
   "status": "proved",
   "theorems": [
    "C107_points",
    "C107_cdf",
    "C107_mixed"
   ],
   "note": "The object state of ModelState, with the data replaced between calls."
  },
  {
   "property": "C108",
   "status": "proved",
   "theorems": [
    "C108_defaults",
    "C108_given",
    "C108_ls"
   ],
   "note": "Options as dictionaries of values; the elements themselves are not drawn."
  },
  {
   "property": "C109",
   "status": "proved",
   "theorems": [
    "C109_corner",
    "C109_alone",
    "C109_given_refuted"
   ],
   "note": "C109_given_refuted: false of the code. Lists of colours as colormap are not modelled."
  },
  {
   "property": "C110",
   "status": "proved",
   "theorems": [
    "C110_valid",
    "C110_dark",
    "C110_order",
    "C110_middle",
    "C110_grey",
    "C110_grey_middle"
   ],
   "note": "matplotlib conversions between RGB and HSV and its table of 256 colours are modelled; rounding is not."
  },
  {
   "property": "C111",
   "status": "proved",
   "theorems": [
    "C111_number",
    "C111_number_init",
    "C111_square",
    "C111_vector",
    "C111_length",
    "C111_columns",
    "C111_array",
    "C111_total",
    "C111_vector_refuted"
   ],
   "note": "C111_total: two parameters; the vector with correlated parameters is false of the code (C111_vector_refuted)."
  },
  {
   "property": "C112",
   "status": "proved",
   "theorems": [
    "C112_mean"
   ],
   "note": "Without reflection."
  },
  {
   "property": "C113",
   "status": "proved",
   "theorems": [
    "C113_covariance",
    "C113_default",
    "C113_kernels"
   ],
   "note": "Without reflection."
  },
  {
   "property": "C114",
   "status": "proved",
   "theorems": [
    "C114_boundaries",
    "C114_extrema_argument",
    "C114_first_error",
    "C114_extrema",
    "C114_given",
    "C114_accepted_boundaries_refuted"
   ],
   "note": "Boundaries and extrema made of None, booleans, numbers, lists and tuples of these; at least one parameter."
  },
  {
   "property": "C115",
   "status": "proved",
   "theorems": [
    "C115_marginal",
    "C115_one_boundary",
    "C115_two_boundaries",
    "C115_gaussian_loses",
    "C115_corner",
    "C115_several_dimensions_refuted"
   ],
   "note": "The integrals are iterated, the dimension with boundaries outermost (any order of the others); the corner is stated for unit covariance."
  },
  {
   "property": "C116",
   "status": "proved",
   "theorems": [
    "C116_points",
    "C116_outcome",
    "C116_band",
    "C116_below",
    "C116_normal",
    "C116_extent",
    "C116_extent_refuted",
    "C116_opacity",
    "C116_sizes",
    "C116_fancy"
   ],
   "note": "Without weights (their effect on the sizes: C102); other options of scatter and the drawing itself not modelled; that the extent is that of the drawn points is false of the code (C116_extent_refuted)."
  },
  {
   "property": "C117",
   "status": "proved",
   "theorems": [
    "C117_last",
    "C117_unweighted",
    "C117_error",
    "C117_first",
    "C117_refused",
    "C117_empty",
    "C117_weighted_refuted"
   ],
   "note": "Weights have the shape of the values and no line of zero total weight; other axes than the last with weights: false of the code (C117_weighted_refuted)."
  },
  {
   "property": "C118",
   "status": "proved",
   "theorems": [
    "C118_keep_number",
    "C118_keep_numbers",
    "C118_keep_plain",
    "C118_keep_bad",
    "C118_keep_bad_reflect",
    "C118_keep_mask_reflect",
    "C118_keep_mask",
    "C118_keep_mask_refuted",
    "C118_params_numbers",
    "C118_params_number",
    "C118_params_bad",
    "C118_params_single"
   ],
   "note": "A list of booleans together with boundaries (an error) is not stated."
  },
  {
   "property": "C119",
   "status": "proved",
   "theorems": [
    "C119_evaluate",
    "C119_grid",
    "C119_grid_empty",
    "C119_inside",
    "C119_positive",
    "C119_box_refuted",
    "C119_vector",
    "C119_number",
    "C119_gaussian",
    "C119_sample"
   ],
   "note": ""
  },
  {
   "property": "C120",
   "status": "proved",
   "theorems": [
    "C120_box",
    "C120_parabola",
    "C120_triweight",
    "C120_parabola_several",
    "C120_triweight_several",
    "C120_box_several",
    "C120_box_fourth",
    "C120_several_refuted"
   ],
   "note": "Refuted in several dimensions (C120_parabola_several, C120_triweight_several, C120_box_fourth hold for every n from 2). Uniform random numbers are taken as independent and uniform on the interval; the sign of a normal deviate as symmetric."
  },
  {
   "property": "C121",
   "status": "proved",
   "theorems": [
    "C121_cases",
    "C121_never_small",
    "C121_matrix",
    "C121_iff",
    "C121_uncorrelated",
    "C121_single",
    "C121_units_refuted"
   ],
   "note": "The text of the messages and the printed matrices are not modelled; kernel matrices of nan (one data point) count as silent."
  },
  {
   "property": "C122",
   "status": "proved",
   "theorems": [
    "C122_short",
    "C122_cut",
    "C122_zero_refuted",
    "C122_negative",
    "C122_stats_zero",
    "C122_rows",
    "C122_scalar",
    "C122_nothing"
   ],
   "note": "Formatting of a number is any function."
  },
  {
   "property": "C123",
   "status": "proved",
   "theorems": [
    "C123_style",
    "C123_style_unique",
    "C123_small_refuted",
    "C123_text",
    "C123_ends",
    "C123_integers",
    "C123_integer_refuted",
    "C123_moments",
    "C123_weights_refuted",
    "C123_log",
    "C123_errors",
    "C123_stats",
    "C123_stats_sample"
   ],
   "note": "Formatting of a number is any function; log for positive numbers; filter and a format that does not suit the type are not modelled; false of the code in three respects (C123_integer_refuted, C123_weights_refuted, C123_small_refuted)."
  },
  {
   "property": "C124",
   "status": "proved",
   "theorems": [
    "C124_jagged_iff",
    "C124_regular",
    "C124_new",
    "C124_missed_refuted",
    "C124_jshape_regular",
    "C124_jshape_iff",
    "C124_jshape_rows",
    "C124_jshape_refuted"
   ],
   "note": "numpy arrays as elements, and printing, are not modelled; that every jagged list is recognised is false of the code (C124_missed_refuted, C124_jshape_refuted)."
  },
  {
   "property": "C125",
   "status": "proved",
   "theorems": [
    "C125_ints",
    "C125_scalar",
    "C125_others",
    "C125_booleans",
    "C125_only_scalars",
    "C125_refuted"
   ],
   "note": "Nested lists are not modelled; large integers: false of the code (C125_refuted)."
  },
  {
   "property": "C126",
   "status": "proved",
   "theorems": [
    "C126_notebook",
    "C126_terminal",
    "C126_script",
    "C126_other",
    "C126_refuted"
   ],
   "note": "Class names with characters below 256; false in other front ends (C126_other, C126_refuted)."
  },
  {
   "property": "C127",
   "status": "proved",
   "theorems": [
    "C127_bins",
    "C127_short"
   ],
   "note": "Called with numbers a, b and num; endpoint and dtype of linspace not modelled."
  },
  {
   "property": "C128",
   "status": "proved",
   "theorems": [
    "C128_gaussian",
    "C128_box",
    "C128_parabola",
    "C128_triweight",
    "C128_parabola_several",
    "C128_several_refuted"
   ],
   "note": "Random numbers are arguments: the means are integrals over the numbers numpy.random documents (standard normal, uniform); independence of different samples and the quality of the generator are not modelled. Box and triweight with several parameters: C120 gives the mismatch of the noise itself."
  },
  {
   "property": "C129",
   "status": "proved",
   "theorems": [
    "C129_drawn",
    "C129_equal",
    "C129_unequal_refuted",
    "C129_pad_refuted",
    "C129_given"
   ],
   "note": "Without smoothing and upsampling (scipy.ndimage is not modelled); the edges are given. The two cases where the claim fails are proved as refutations."
  },
  {
   "property": "C130",
   "status": "proved",
   "theorems": [
    "C130_change",
    "C130_any",
    "C130_rotation",
    "C130_exchange",
    "C130_diagonal_refuted"
   ],
   "note": "In exact arithmetic, without reflection. The factor is |r| for a parameter multiplied by r and 1 for shifts and sums, multiplied along a sequence; for an arbitrary matrix the factor is shown to depend on the matrix only."
  },
  {
   "property": "C131",
   "status": "proved",
   "theorems": [
    "C131_continuous",
    "C131_side",
    "C131_off",
    "C131_boundary_refuted",
    "C131_box",
    "C131_box_refuted"
   ],
   "note": "In exact arithmetic. The two discontinuities are proved as refutations."
  },
  {
   "property": "C132",
   "status": "proved",
   "theorems": [
    "C132_mixture",
    "C132_fixed",
    "C132_estimated_refuted"
   ],
   "note": "In exact arithmetic. The failing case is proved as a refutation."
  },
  {
   "property": "C133",
   "status": "proved",
   "theorems": [
    "C133_keep_law",
    "C133_narrower"
   ],
   "note": "The random numbers are treated as exactly standard normal and independent; without reflection."
  },
  {
   "property": "C134",
   "status": "proved",
   "theorems": [
    "C134_error",
    "C134_upto",
    "C134_finite",
    "C134_converges",
    "C134_tail_refuted",
    "C134_coarse_refuted"
   ],
   "note": "In exact arithmetic, one-dimensional data. The failing cases are proved as refutations."
  },
  {
   "property": "C135",
   "status": "proved",
   "theorems": [
    "C135_among",
    "C135_gaussian",
    "C135_falls",
    "C135_falls_gaussian",
    "C135_one",
    "C135_parameter_refuted",
    "C135_boundary_refuted"
   ],
   "note": "In exact arithmetic, without boundaries. The failing cases are proved as refutations."
  },
  {
   "property": "C136",
   "status": "proved",
   "theorems": [
    "C136_succeeds",
    "C136_visible",
    "C136_labels",
    "C136_all_labels",
    "C136_ticks",
    "C136_sides",
    "C136_diagonal",
    "C136_more_axes",
    "C136_grid_refuted"
   ],
   "note": "What is set on the axes; drawing by matplotlib is not modelled. The grid argument is proved as a refutation."
  },
  {
   "property": "C137",
   "status": "proved",
   "theorems": [
    "C137_new",
    "C137_size",
    "C137_given",
    "C137_wrong_figure_refuted",
    "C137_figsize",
    "C137_no_parameters"
   ],
   "note": "pyplot is modelled as a list of figures with a current one. The wrong figure is proved as a refutation."
  },
  {
   "property": "C138",
   "status": "proved",
   "theorems": [
    "C138_slope",
    "C138_maximum",
    "C138_pull",
    "C138_climb",
    "C138_edge_refuted"
   ],
   "note": "In exact arithmetic, without boundaries. The edge of the parabola is proved as a refutation."
  },
  {
   "property": "C139",
   "status": "proved",
   "theorems": [
    "C139_components",
    "C139_mask",
    "C139_layers",
    "C139_one_contour",
    "C139_one_contour_refuted",
    "C139_points",
    "C139_medians"
   ],
   "note": "Edges given, no smoothing or upsampling. matplotlib is assumed to draw what it is told; np.random.choice is assumed to choose different indices."
  },
  {
   "property": "C140",
   "status": "proved",
   "theorems": [
    "C140_outline",
    "C140_outline_list",
    "C140_other_length",
    "C140_other_length_refuted",
    "C140_no_outline",
    "C140_levels",
    "C140_small_fraction",
    "C140_small_fraction_refuted",
    "C140_same_level",
    "C140_same_level_refuted"
   ],
   "note": "matplotlib (before 3.8, with `collections`) is assumed to behave as modelled: contour needs an array of 2 by 2, strictly increasing levels, replaces levels none of which is inside the range by the lowest value, and repeats lists of widths. Opacity outside [0, 1] is refused."
  },
  {
   "property": "C141",
   "status": "proved",
   "theorems": [
    "C141_growing",
    "C141_off_the_data",
    "C141_at_the_data",
    "C141_empirical",
    "C141_every_bandwidth"
   ],
   "note": "No reflection; over the reals, where no bandwidth is small enough to underflow. The statement on intervals is for one dimension."
  },
  {
   "property": "C142",
   "status": "proved",
   "theorems": [
    "C142_peak",
    "C142_moved",
    "C142_box_refuted",
    "C142_replaced",
    "C142_left_out",
    "C142_weights"
   ],
   "note": "The matrix of the kernel is the same for both KDEs (covariance and bandwidth given); with an automatic covariance it depends on the data. No reflection."
  },
  {
   "property": "C143",
   "status": "proved",
   "theorems": [
    "C143_quantiles",
    "C143_edges",
    "C143_extrema",
    "C143_points",
    "C143_moved",
    "C143_many",
    "C143_few",
    "C143_units_refuted"
   ],
   "note": "np.argsort is any sorting that looks at the values only through comparisons. Span of the extrema positive (data all equal: the width 1e-16 is absolute). Extrema: no extrema given by the user; with reflect at least one boundary that is not None."
  },
  {
   "property": "C144",
   "status": "proved",
   "theorems": [
    "C144_meaning",
    "C144_says_unique",
    "C144_asks_unique",
    "C144_vector",
    "C144_vector_as_bins",
    "C144_vector_of_floats",
    "C144_vector_refuted",
    "C144_vectors",
    "C144_no_bins",
    "C144_checked"
   ],
   "note": "Extrema finite with positive extent in every dimension (they are those of KDE.extrema, or given). Entries of sequences: None, integers, floats, flat sequences, deeper nesting; no strings."
  },
  {
   "property": "C145",
   "status": "proved",
   "theorems": [
    "C145_images",
    "C145_level",
    "C145_two",
    "C145_far",
    "C145_rising",
    "C145_correlated_refuted",
    "C145_unique"
   ],
   "note": "Boundaries in one dimension only. The slope is the one-sided derivative into the allowed region (epsilon-delta, unique)."
  },
  {
   "property": "C146",
   "status": "proved",
   "theorems": [
    "C146_law",
    "C146_joint",
    "C146_whole",
    "C146_centre",
    "C146_order",
    "C146_reach",
    "C146_everywhere_refuted"
   ],
   "note": "The random numbers are the integration variables (Riemann integrals, one after the other); the joint law is stated for products of functions of the coordinates."
  },
  {
   "property": "C147",
   "status": "proved",
   "theorems": [
    "C147_density",
    "C147_mirror",
    "C147_half",
    "C147_quantiles",
    "C147_median",
    "C147_order"
   ],
   "note": "Without boundaries and with diagonal=False; the symmetry maps the data as points, exactly."
  },
  {
   "property": "C148",
   "status": "proved",
   "theorems": [
    "C148_samples",
    "C148_light",
    "C148_all_heavy"
   ],
   "note": "One coordinate at a time; the numbers of Poisson draws are arguments."
  },
  {
   "property": "C149",
   "status": "proved",
   "theorems": [
    "C149_units",
    "C149_band_units",
    "C149_monotone",
    "C149_stable",
    "C149_band_stable",
    "C149_weighted_refuted",
    "C149_repeats_refuted"
   ],
   "note": "quantiles with axis=None; the refutations hold for every sorting order."
  },
  {
   "property": "C150",
   "status": "proved",
   "theorems": [
    "C150_symmetric",
    "C150_square",
    "C150_mean",
    "C150_gaussian",
    "C150_away",
    "C150_variance"
   ],
   "note": "1-D, one boundary, given with the call."
  },
  {
   "property": "C151",
   "status": "proved",
   "theorems": [
    "C151_units",
    "C151_exchange",
    "C151_order",
    "C151_weights",
    "C151_places",
    "C151_continuous_refuted"
   ],
   "note": "without smoothing and upsampling; edges given."
  },
  {
   "property": "C152",
   "status": "proved",
   "theorems": [
    "C152_units",
    "C152_moved",
    "C152_order",
    "C152_weights",
    "C152_repeats"
   ],
   "note": "grids with at least two values in every dimension; positive scales."
  },
  {
   "property": "C153",
   "status": "proved",
   "theorems": [
    "C153_mirror",
    "C153_symmetric",
    "C153_centre",
    "C153_exchange"
   ],
   "note": "without boundaries, one bandwidth for all parameters."
  },
  {
   "property": "C154",
   "status": "proved",
   "theorems": [
    "C154_units",
    "C154_unreflected"
   ],
   "note": "the covariance is computed from the data (not given); positions of np.random.choice are positions in the array it draws from."
  },
  {
   "property": "C155",
   "status": "proved",
   "theorems": [
    "C155_units",
    "C155_outliers",
    "C155_density_factor",
    "C155_scalars_refuted"
   ],
   "note": "edges as a list of vectors. Refuted for interpolated scalars: the gradient of scalar_dens is added without the volume of the bin."
  },
  {
   "property": "C156",
   "status": "proved",
   "theorems": [
    "C156_doubled",
    "C156_symmetric",
    "C156_mirrored"
   ],
   "note": "one scalar bandwidth, KDE built without stored reflection; for symmetric data boundaries in one dimension, for mirrored data in any dimensions."
  }
 ]
}