{
 "claims": [
  {
   "property": "C01",
   "status": "proved",
   "theorems": [
    "C01_marginals_are_sums"
   ],
   "note": ""
  },
  {
   "property": "C02",
   "status": "proved",
   "theorems": [
    "C02_light_weighting"
   ],
   "note": ""
  },
  {
   "property": "C03",
   "status": "proved",
   "theorems": [
    "C03_density_marginals",
    "C03_density_conditionals"
   ],
   "note": ""
  },
  {
   "property": "C04",
   "status": "proved",
   "theorems": [
    "C04_conditionals",
    "C04_never_infinite"
   ],
   "note": ""
  },
  {
   "property": "C05",
   "status": "proved",
   "theorems": [
    "C05_marginals_sum",
    "C05_light_total",
    "C05_conditionals_sum"
   ],
   "note": ""
  },
  {
   "property": "C06",
   "status": "proved",
   "theorems": [
    "C06_product_rule",
    "C06_bayes_rule"
   ],
   "note": ""
  },
  {
   "property": "C07",
   "status": "proved",
   "theorems": [
    "C07_marginal_consistency"
   ],
   "note": ""
  },
  {
   "property": "C08",
   "status": "proved",
   "theorems": [
    "C08_exp_of_log",
    "C08_log_zero"
   ],
   "note": ""
  },
  {
   "property": "C09",
   "status": "proved",
   "theorems": [
    "C09_unknown_marginals_raise",
    "C09_accepted_conditionals",
    "C09_misordered_is_alphabetical",
    "C09_axes_in_string_order_refuted",
    "C09_empty_dependent_refuted"
   ],
   "note": "Proved: unknown marginal strings raise AttributeError; every accepted conditional string splits into disjoint variables. Refuted parts: misordered dependent part ('zx_v') and empty dependent part ('_t') are accepted."
  },
  {
   "property": "C10",
   "status": "proved",
   "theorems": [
    "C10_constructor_shape"
   ],
   "note": ""
  },
  {
   "property": "C11",
   "status": "proved",
   "theorems": [
    "C11_shift_mass",
    "C11_shift_light",
    "C11_shift_conditionals",
    "C11_light_scale_marginals",
    "C11_light_scale_conditionals"
   ],
   "note": ""
  },
  {
   "property": "C12",
   "status": "proved",
   "theorems": [
    "C12_history",
    "C12_query",
    "C12_layout",
    "C12_parametric_history",
    "C12_parametric_query",
    "C12_parametric_layout"
   ],
   "note": "Arrays are views of buffers in a heap; base and parametric components. The caller may overwrite returned arrays between calls. Mixtures' own methods are not on the heap."
  },
  {
   "property": "C13",
   "status": "proved",
   "theorems": [
    "C13_mean"
   ],
   "note": ""
  },
  {
   "property": "C14",
   "status": "proved",
   "theorems": [
    "C14_total_expectation"
   ],
   "note": ""
  },
  {
   "property": "C15",
   "status": "proved",
   "theorems": [
    "C15_noncentral_moments",
    "C15_central_moments",
    "C15_low_orders"
   ],
   "note": ""
  },
  {
   "property": "C16",
   "status": "proved",
   "theorems": [
    "C16_variance"
   ],
   "note": ""
  },
  {
   "property": "C17",
   "status": "proved",
   "theorems": [
    "C17_skewness_kurtosis"
   ],
   "note": ""
  },
  {
   "property": "C18",
   "status": "proved",
   "theorems": [
    "C18_covariance",
    "C18_correlation",
    "C18_arity_marginal",
    "C18_arity_conditional",
    "C18_pair_order_refuted"
   ],
   "note": ""
  },
  {
   "property": "C19",
   "status": "proved",
   "theorems": [
    "C19_l_mean",
    "C19_l_dispersion",
    "C19_l_dispersion_shift",
    "C19_l_moments_of_x"
   ],
   "note": ""
  },
  {
   "property": "C20",
   "status": "proved",
   "theorems": [
    "C20_third_moment_shift",
    "C20_l_skewness_origin_refuted"
   ],
   "note": ""
  },
  {
   "property": "C21",
   "status": "proved",
   "theorems": [
    "C21_cube_geometry",
    "C21_good_grid",
    "C21_first_edge",
    "C21_last_edge",
    "C21_queries",
    "C21_no_bins"
   ],
   "note": ""
  },
  {
   "property": "C22",
   "status": "proved",
   "theorems": [
    "C22_volume_marginal",
    "C22_volume_conditional",
    "C22_volume_total"
   ],
   "note": ""
  },
  {
   "property": "C23",
   "status": "proved",
   "theorems": [
    "C23_distribution_shape",
    "C23_unknown_variable"
   ],
   "note": ""
  },
  {
   "property": "C24",
   "status": "proved",
   "theorems": [
    "C24_image_orientation"
   ],
   "note": ""
  },
  {
   "property": "C25",
   "status": "proved",
   "theorems": [
    "C25_plotting_keeps_tuple_ranges",
    "C25_list_range_refuted",
    "C25_mixed_ranges_raise"
   ],
   "note": ""
  },
  {
   "property": "C26",
   "status": "proved",
   "theorems": [
    "C26_edges",
    "C26_too_few"
   ],
   "note": ""
  },
  {
   "property": "C27",
   "status": "proved",
   "theorems": [
    "C27_centres",
    "C27_end_centres",
    "C27_refuted"
   ],
   "note": ""
  },
  {
   "property": "C28",
   "status": "proved",
   "theorems": [
    "C28_rebin",
    "C28_factor_1",
    "C28_factor_0"
   ],
   "note": ""
  },
  {
   "property": "C29",
   "status": "proved",
   "theorems": [
    "C29_light_weights"
   ],
   "note": ""
  },
  {
   "property": "C30",
   "status": "proved",
   "theorems": [
    "C30_get_ssp",
    "C30_error_refuted",
    "C30_label_refuted"
   ],
   "note": ""
  },
  {
   "property": "C31",
   "status": "proved",
   "theorems": [
    "C31_ticks",
    "C31_rebinned_refuted"
   ],
   "note": ""
  },
  {
   "property": "C32",
   "status": "proved",
   "theorems": [
    "C32_names_round_trip"
   ],
   "note": ""
  },
  {
   "property": "C33",
   "status": "proved",
   "theorems": [
    "C33_limits",
    "C33_ragged"
   ],
   "note": ""
  },
  {
   "property": "C34",
   "status": "proved",
   "theorems": [
    "C34_columns",
    "C34_listing_order"
   ],
   "note": ""
  },
  {
   "property": "C35",
   "status": "proved",
   "theorems": [
    "C35_truncation",
    "C35_out_of_range"
   ],
   "note": ""
  },
  {
   "property": "C36",
   "status": "proved",
   "theorems": [
    "C36_divisible_refuted",
    "C36_strided",
    "C36_adjacent_refuted",
    "C36_wavelength_refuted"
   ],
   "note": ""
  },
  {
   "property": "C37",
   "status": "proved",
   "theorems": [
    "C37_no_cache_refuted",
    "C37_default_error_refuted",
    "C37_cached",
    "C37_reset_refuted"
   ],
   "note": ""
  },
  {
   "property": "C38",
   "status": "proved",
   "theorems": [
    "C38_fractions",
    "C38_density",
    "C38_no_weights",
    "C38_weights_length",
    "C38_no_particles",
    "C38_one_bin",
    "C38_only_in_bounds"
   ],
   "note": ""
  },
  {
   "property": "C39",
   "status": "proved",
   "theorems": [
    "C39_outside_ignored",
    "C39_note",
    "C39_nan"
   ],
   "note": ""
  },
  {
   "property": "C40",
   "status": "proved",
   "theorems": [
    "C40_order",
    "C40_scale"
   ],
   "note": ""
  },
  {
   "property": "C41",
   "status": "proved",
   "theorems": [
    "C41_rigid_motion",
    "C41_cube_coordinates"
   ],
   "note": ""
  },
  {
   "property": "C42",
   "status": "proved",
   "theorems": [
    "C42_star_formation_history",
    "C42_value_error",
    "C42_nan_shape"
   ],
   "note": "Non-positive shape parameters are accepted and store nan: C42_nan_shape."
  },
  {
   "property": "C43",
   "status": "proved",
   "theorems": [
    "C43_age_interpolation",
    "C43_needs_p_t"
   ],
   "note": ""
  },
  {
   "property": "C44",
   "status": "proved",
   "theorems": [
    "C44_disk_density",
    "C44_invalid_limits"
   ],
   "note": ""
  },
  {
   "property": "C45",
   "status": "proved",
   "theorems": [
    "C45_mean_velocity",
    "C45_dispersion",
    "C45_depletion_time",
    "C45_invalid_arguments",
    "C45_sigma_limits_ignored"
   ],
   "note": ""
  },
  {
   "property": "C46",
   "status": "proved",
   "theorems": [
    "C46_stream_density",
    "C46_invalid_angles",
    "C46_mean_velocity",
    "C46_velocity_needs_track",
    "C46_dispersion"
   ],
   "note": ""
  },
  {
   "property": "C47",
   "status": "proved",
   "theorems": [
    "C47_calibration",
    "C47_metallicity",
    "C47_bin_probability_refuted"
   ],
   "note": "Bin probabilities as stated for bins of equal width; refuted for unequal bins (extra width factor): C47_bin_probability_refuted."
  },
  {
   "property": "C48",
   "status": "proved",
   "theorems": [
    "C48_nearest",
    "C48_above_ten_refuted"
   ],
   "note": "Nearest table entry proved; depletion times above 10 are silently treated as 10: C48_above_ten_refuted."
  },
  {
   "property": "C49",
   "status": "proved",
   "theorems": [
    "C49_marginals",
    "C49_conditionals",
    "C49_stored_factors",
    "C49_light_weighted_v_tx",
    "C49_growing_disk",
    "C49_stream"
   ],
   "note": ""
  },
  {
   "property": "C50",
   "status": "proved",
   "theorems": [
    "C50_lost_mass",
    "C50_summation_refuted",
    "C50_v_tx_normalisation"
   ],
   "note": "Refuted as stated: C50_summation_refuted; exact difference in C50_lost_mass."
  },
  {
   "property": "C51",
   "status": "proved",
   "theorems": [
    "C51_means",
    "C51_moments",
    "C51_central_moments",
    "C51_moments_unique",
    "C51_variance",
    "C51_factorial2_refuted"
   ],
   "note": "Moments are stated as limits of Riemann integrals of the normal density. factorial2(-1) is a parameter of the model: with 1 (SciPy up to 1.11) all orders hold, with 0 (SciPy 1.12 and later) order 0 and every even order fail, see the _refuted theorem."
  },
  {
   "property": "C52",
   "status": "proved",
   "theorems": [
    "C52_mixture_centre",
    "C52_mixture_refuted",
    "C52_centre_of_first_z",
    "C52_centre_refuted"
   ],
   "note": "Holds on the component itself about its own mean (C51_central_moments); refuted for other centres, for every component, and for mixtures with the value 8 in place of 4."
  },
  {
   "property": "C53",
   "status": "proved",
   "theorems": [
    "C53_without_v",
    "C53_age_velocity",
    "C53_refuted"
   ],
   "note": "Pairs without v are in [-1,1]; refuted with v by a component whose correlation exceeds 10. The stand-in for the normal cdf in the refutation is the logistic function."
  },
  {
   "property": "C54",
   "status": "proved",
   "theorems": [
    "C54_disk_marginals",
    "C54_disk_conditionals",
    "C54_disk_calls",
    "C54_disk_rejected",
    "C54_disk_memory",
    "C54_disk_replay",
    "C54_disk_overwritten",
    "C54_disk_in_order",
    "C54_stream_marginals",
    "C54_stream_conditionals",
    "C54_stream_calls",
    "C54_stream_rejected",
    "C54_stream_memory",
    "C54_stream_overwritten",
    "C54_stream_angles_refuted",
    "C54_stream_failed_call_refuted"
   ],
   "note": "Holds for GrowingDisk. For Stream two parts are refuted: the mean velocity keeps the angles of the set_p_x_t call that preceded it, and a set_p_x_t call that raises (no points on the track) still stores its angles."
  },
  {
   "property": "C55",
   "status": "proved",
   "theorems": [
    "C55_weights_accepted",
    "C55_weights_rejected"
   ],
   "note": ""
  },
  {
   "property": "C56",
   "status": "proved",
   "theorems": [
    "C56_mixed_marginals",
    "C56_mixed_conditionals",
    "C56_marginals",
    "C56_conditionals",
    "C56_marginal_shares",
    "C56_conditional_shares"
   ],
   "note": "C56_mixed_* cover members that are base or parametric components in any combination; the others compare with a plain component, which exists for base members only."
  },
  {
   "property": "C57",
   "status": "proved",
   "theorems": [
    "C57_mixed_means",
    "C57_mixed_central_moments",
    "C57_mixed_velocity_means",
    "C57_mixed_velocity_moments",
    "C57_light_given_v",
    "C57_light_given_v_refuted",
    "C57_mean",
    "C57_central_moments",
    "C57_empty_member_refuted"
   ],
   "note": "C57_mixed_* cover parametric members. For them light-weighted moments given v are refuted: the shares of light are not those of the velocity range."
  },
  {
   "property": "C58",
   "status": "proved",
   "theorems": [
    "C58_nested_refuted"
   ],
   "note": ""
  },
  {
   "property": "C59",
   "status": "proved",
   "theorems": [
    "C59_light_any_string_refuted",
    "C59_light_order_ignored_refuted",
    "C59_mass_raises"
   ],
   "note": ""
  },
  {
   "property": "C60",
   "status": "proved",
   "theorems": [
    "C60_base",
    "C60_base_other_modes",
    "C60_base_convolution",
    "C60_base_one_bin",
    "C60_parametric",
    "C60_parametric_other_modes"
   ],
   "note": ""
  },
  {
   "property": "C61",
   "status": "proved",
   "theorems": [
    "C61_weighted_sum",
    "C61_combined_density"
   ],
   "note": ""
  },
  {
   "property": "C62",
   "status": "proved",
   "theorems": [
    "C62_base",
    "C62_pixel_probability",
    "C62_parametric"
   ],
   "note": "Base: for interpolations that keep the value at frequency 0, as any interpolant does."
  },
  {
   "property": "C63",
   "status": "proved",
   "theorems": [
    "C63_shift",
    "C63_odd_displacement",
    "C63_odd_refuted"
   ],
   "note": "Odd numbers of pixels refuted: C63_odd_refuted."
  },
  {
   "property": "C64",
   "status": "proved",
   "theorems": [
    "C64_accepted",
    "C64_rejected",
    "C64_no_zero_refuted",
    "C64_symmetric_refuted"
   ],
   "note": "Refuted as stated: C64_no_zero_refuted, C64_symmetric_refuted (IndexError)."
  },
  {
   "property": "C65",
   "status": "proved",
   "theorems": [
    "C65_last_wins",
    "C65_base_refuted",
    "C65_before_and_after_refuted",
    "C65_same_width",
    "C65_parametric_refuted",
    "C65_parametric_size_refuted"
   ],
   "note": "Refuted. Parametric: the datacube is consistent with the pixels of the last cube, so its size and pixel width change; see C65_parametric_size_refuted."
  },
  {
   "property": "C66",
   "status": "proved",
   "theorems": [
    "C66_constant_snr",
    "C66_negative_pixel",
    "C66_sample"
   ],
   "note": ""
  },
  {
   "property": "C67",
   "status": "proved",
   "theorems": [
    "C67_shot_noise",
    "C67_sample",
    "C67_negative_pixel"
   ],
   "note": ""
  },
  {
   "property": "C68",
   "status": "proved",
   "theorems": [
    "C68_constant_snr_heap",
    "C68_shot_noise_heap",
    "C68_ybar_plus_noise",
    "C68_constant_snr",
    "C68_shot_noise",
    "C68_not_evaluated"
   ],
   "note": "'Leaves ybar unchanged' is C68_*_heap; the other theorems are about values."
  },
  {
   "property": "C69",
   "status": "proved",
   "theorems": [
    "C69_save_numpy_refuted",
    "C69_no_directory_refuted",
    "C69_mixture",
    "C69_mixture_not_evaluated"
   ],
   "note": ""
  },
  {
   "property": "C70",
   "status": "proved",
   "theorems": [
    "C70_thinning"
   ],
   "note": ""
  },
  {
   "property": "C71",
   "status": "proved",
   "theorems": [
    "C71_files_to_cube"
   ],
   "note": ""
  },
  {
   "property": "C72",
   "status": "proved",
   "theorems": [
    "C72_npz_name",
    "C72_dill_dump_refuted",
    "C72_save_numpy_refuted",
    "C72_with_separator",
    "C72_contents"
   ],
   "note": ""
  },
  {
   "property": "C73",
   "status": "proved",
   "theorems": [
    "C73_odd_bins_displacement",
    "C73_odd_bins_refuted"
   ],
   "note": "Refuted for odd numbers of bins: C73_odd_bins_refuted."
  },
  {
   "property": "C74",
   "status": "proved",
   "theorems": [
    "C74_calibrated_table",
    "C74_mean_metallicity"
   ],
   "note": ""
  },
  {
   "property": "C75",
   "status": "proved",
   "theorems": [
    "C75_mean_is_shared",
    "C75_refuted"
   ],
   "note": "Refuted: get_mean('v_tx') of a parametric component returns the stored array."
  },
  {
   "property": "C76",
   "status": "proved",
   "theorems": [
    "C76_component",
    "C76_growing_disk",
    "C76_stream",
    "C76_disk_ready",
    "C76_stream_ready",
    "C76_mixture",
    "C76_total_flux"
   ],
   "note": ""
  },
  {
   "property": "C77",
   "status": "proved",
   "theorems": [
    "C77_parametric",
    "C77_base",
    "C77_refuted",
    "C77_resampled_refuted"
   ],
   "note": "Holds for templates whose flux is a common multiple of their light weights; refuted in general (C77_refuted) and for resampled templates (C77_resampled_refuted)."
  },
  {
   "property": "C78",
   "status": "proved",
   "theorems": [
    "C78_parameters",
    "C78_answers",
    "C78_never",
    "C78_last",
    "C78_stale_refuted"
   ],
   "note": "ybar is that of the last successful evaluation; refuted that it follows the parameters (C78_stale_refuted)."
  },
  {
   "property": "C79",
   "status": "proved",
   "theorems": [
    "C79_histogram",
    "C79_unique"
   ],
   "note": "The L-mean is exact; L-dispersion and third L-moment are off by the stated amounts."
  },
  {
   "property": "C80",
   "status": "proved",
   "theorems": [
    "C80_normal",
    "C80_excess"
   ],
   "note": ""
  },
  {
   "property": "C81",
   "status": "proved",
   "theorems": [
    "C81_image_axes",
    "C81_image_ticks",
    "C81_image_ticks_vertical",
    "C81_plot_physical",
    "C81_plot_discrete",
    "C81_plot_discrete_refuted",
    "C81_plot_columns_refuted",
    "C81_plot_errors",
    "C81_spectrum",
    "C81_spectrum_refuted"
   ],
   "note": "Images and physical spacing hold; discrete spacing (C81_plot_discrete_refuted, C81_plot_columns_refuted) and log-sampled spectra (C81_spectrum_refuted) are refuted."
  },
  {
   "property": "C82",
   "status": "proved",
   "theorems": [
    "C82_mean",
    "C82_moments",
    "C82_central_moments",
    "C82_variance",
    "C82_shape",
    "C82_covariance",
    "C82_l_mean",
    "C82_l_moments",
    "C82_excess_l_moments",
    "C82_l_moments_of_x",
    "C82_velocity_l_moments",
    "C82_velocity_l_mean",
    "C82_velocity_l_mean_refuted"
   ],
   "note": "Holds for ages, positions and metallicities; the L-mean velocity differs from the mean velocity (C82_velocity_l_mean_refuted)."
  },
  {
   "property": "C83",
   "status": "proved",
   "theorems": [
    "C83_variance",
    "C83_shape",
    "C83_covariance",
    "C83_correlation",
    "C83_l_moments",
    "C83_mixed_variance",
    "C83_mixed_shape",
    "C83_mixed_covariance",
    "C83_mixed_correlation",
    "C83_mixed_l_moments",
    "C83_empty_member_refuted"
   ],
   "note": "Holds where every member has mass; a bin in which one member is empty gives nan (C83_empty_member_refuted), except for L-moments."
  },
  {
   "property": "C84",
   "status": "proved",
   "theorems": [
    "C84_shape",
    "C84_given_t_and_x",
    "C84_one_mean",
    "C84_mixture",
    "C84_mixture_unique"
   ],
   "note": "For scipy versions where factorial2(-1) is 1 (see C51)."
  },
  {
   "property": "C85",
   "status": "proved",
   "theorems": [
    "C85_built",
    "C85_marginals",
    "C85_conditionals",
    "C85_moments",
    "C85_empty_set_refuted",
    "C85_datacube",
    "C85_notes"
   ],
   "note": "Means and moments agree where every set has mass; where one set is empty those of the mixture are nan (C85_empty_set_refuted)."
  },
  {
   "property": "C86",
   "status": "proved",
   "theorems": [
    "C86_marginals",
    "C86_conditionals",
    "C86_binning_error",
    "C86_light_marginals",
    "C86_light_conditionals",
    "C86_light_moments"
   ],
   "note": ""
  },
  {
   "property": "C87",
   "status": "proved",
   "theorems": [
    "C87_marginals",
    "C87_conditionals",
    "C87_means",
    "C87_central_moments",
    "C87_velocity_means",
    "C87_velocity_moments",
    "C87_datacube",
    "C87_single_distributions",
    "C87_single_moments",
    "C87_single_datacube"
   ],
   "note": "Velocity means and moments are compared where every member has mass; a single member is a base component."
  },
  {
   "property": "C88",
   "status": "proved",
   "theorems": [
    "C88_marginals",
    "C88_conditionals",
    "C88_means",
    "C88_central_moments",
    "C88_parametric_marginals",
    "C88_parametric_conditionals",
    "C88_mixture_marginals",
    "C88_mixture_conditionals",
    "C88_mixture_means",
    "C88_mixture_central_moments",
    "C88_mixture_velocity_means",
    "C88_mixture_velocity_moments",
    "C88_templates",
    "C88_datacube",
    "C88_parametric_datacube",
    "C88_mixture_datacube",
    "C88_constant_noise",
    "C88_shot_noise"
   ],
   "note": "The interpolation of the templates is a parameter, assumed finite on finite values and homogeneous (the interpolation of k times the values is k times the interpolation), as the cubic spline of scipy is. Parametric components: distributions and datacubes; velocity moments of mixtures where every member has light."
  },
  {
   "property": "C89",
   "status": "proved",
   "theorems": [
    "C89_default",
    "C89_padded",
    "C89_unknown",
    "C89_power_of_two",
    "C89_datacube",
    "C89_parametric_datacube",
    "C89_batches_refuted",
    "C89_parametric_batches_refuted",
    "C89_no_wrap"
   ],
   "note": "The datacube has as many wavelengths as the padded templates, more than Xw and the wavelength attribute. False as stated for batch='column' and 'spaxel', which allocate Xw.shape[0] wavelengths and raise ValueError unless that is a power of two (C89_batches_refuted, C89_parametric_batches_refuted). np.log2 is in real arithmetic."
  },
  {
   "property": "C90",
   "status": "proved",
   "theorems": [
    "C90_central_moments",
    "C90_given_age_and_position",
    "C90_same_as_get_central_moment",
    "C90_documented_call_refuted",
    "C90_order_zero_refuted"
   ],
   "note": "False as documented for v, v_z, v_tz and v_xz, whose mu has no default: the documented call raises TypeError (C90_documented_call_refuted). With any mu they are right. Where scipy's factorial2(-1) is 0 the moment of order 0 given age and position is 0 (C90_order_zero_refuted)."
  },
  {
   "property": "C91",
   "status": "proved",
   "theorems": [
    "C91_marginals",
    "C91_conditionals",
    "C91_means",
    "C91_central_moments",
    "C91_dispersions",
    "C91_shapes",
    "C91_l_means",
    "C91_l_dispersions",
    "C91_covariances",
    "C91_correlations",
    "C91_parametric_marginals",
    "C91_parametric_conditionals",
    "C91_parametric_means",
    "C91_parametric_central_moments",
    "C91_mixture_marginals",
    "C91_mixture_conditionals",
    "C91_mixture_means",
    "C91_mixture_central_moments",
    "C91_mixture_velocity_means",
    "C91_mixture_velocity_moments",
    "C91_datacube",
    "C91_parametric_datacube"
   ],
   "note": "Velocity moments of mixtures where every member is present; mean and moments of parametric components are those of the velocity. The L-skewness depends on the origin (C20). Velocities enter the datacube through the fixed speed of light, so their unit is kept there."
  },
  {
   "property": "C92",
   "status": "proved",
   "theorems": [
    "C92_base",
    "C92_parametric",
    "C92_mixture",
    "C92_mixed",
    "C92_units",
    "C92_one_bin_refuted",
    "C92_unbounded_refuted"
   ],
   "note": "As L-moments of the distribution the ratios are wrong: one bin (C92_one_bin_refuted), any origin (C92_units, C92_unbounded_refuted, where the L-skewness even has the wrong sign). What the code computes is characterised exactly for base components, parametric components (t, z) and mixtures."
  },
  {
   "property": "C93",
   "status": "proved",
   "theorems": [
    "C93_enrichment",
    "C93_density_of_mean"
   ],
   "note": "The mean is that of the normal distribution before truncation to the metallicity bins; C93_density_of_mean shows that it determines the density. Extends C47, C48 and C74, whose tables it composes."
  },
  {
   "property": "C94",
   "status": "proved",
   "theorems": [
    "C94_history",
    "C94_query",
    "C94_base_member",
    "C94_parametric_member",
    "C94_list_is_shared",
    "C94_datacube",
    "C94_component_array_is_shared"
   ],
   "note": "C94_history composes the constructor with an arbitrary history. Edits of the list replace entries; its length is fixed. C94_list_is_shared shows that an edit of the list changes answers. The members are base or parametric components (C94_base_member, C94_parametric_member), or anything with methods that make new arrays."
  },
  {
   "property": "C95",
   "status": "proved",
   "theorems": [
    "C95_base_query",
    "C95_base_history",
    "C95_parametric_query",
    "C95_parametric_history",
    "C95_shared_means",
    "C95_mixture_history",
    "C95_mixture_query",
    "C95_base_part",
    "C95_parametric_part",
    "C95_own_arrays",
    "C95_new_arrays",
    "C95_edited_edges",
    "C95_own_arrays_refuted"
   ],
   "note": "The heap models are in HeapMom.v, HeapParMom.v and HeapMixMom.v. For parametric components the histories exclude get_mean of v_tx and v_txz (C95_shared_means says what these return). C95_own_arrays_refuted: editing the edges returned for v changes later answers; C95_edited_edges says to what. Mixtures are followed from their constructor on; their members are base or parametric components (C95_base_part, C95_parametric_part)."
  },
  {
   "property": "C96",
   "status": "proved",
   "theorems": [
    "C96_total_variance",
    "C96_total_covariance",
    "C96_covariance_by_means",
    "C96_parametric",
    "C96_mixture_variance",
    "C96_mixture_covariance"
   ],
   "note": "averaged (TotalSpec.v) sums over the occupied bins only, since moments are nan elsewhere. Velocities of parametric components are left out: their moments are those of normal distributions, with probabilities of the cube's bins not summing to one (C84 has the law of total variance for these)."
  },
  {
   "property": "C97",
   "status": "proved",
   "theorems": [
    "C97_same_length",
    "C97_longer",
    "C97_datacube",
    "C97_shorter",
    "C97_shorter_conditional",
    "C97_moments_fail",
    "C97_one_weight",
    "C97_one_member",
    "C97_empty"
   ],
   "note": "Light-weighted distributions of shortened lists are modelled but no value is stated for them; the same-length and longer-list theorems cover both weightings."
  },
  {
   "property": "C98",
   "status": "proved",
   "theorems": [
    "C98_age_and_metallicity",
    "C98_distributions",
    "C98_statistics",
    "C98_covariances",
    "C98_spread_mean",
    "C98_spread_distribution",
    "C98_parametric",
    "C98_light_in_range",
    "C98_parametric_velocity_refuted",
    "C98_parametric_statistics",
    "C98_parametric_velocities",
    "C98_mixture_distributions",
    "C98_mixture_members",
    "C98_mixture_statistics",
    "C98_mixture_covariance"
   ],
   "note": "For mixtures the statistics are compared where every member has mass (elsewhere C58 and C85 give nan); skewness, kurtosis and correlation of mixtures, and mixtures with parametric members, are not compared."
  },
  {
   "property": "C99",
   "status": "proved",
   "theorems": [
    "C99_products",
    "C99_light",
    "C99_mixture_products",
    "C99_distributions",
    "C99_test",
    "C99_statistics",
    "C99_covariances",
    "C99_uncorrelated",
    "C99_light_free",
    "C99_light_free_statistics",
    "C99_parametric",
    "C99_mixture_distributions",
    "C99_mixture_statistics",
    "C99_mixture_uncorrelated",
    "C99_mixture_refuted"
   ],
   "note": "C99_mixture_refuted shows that independence in every member does not make it hold in the mixture; that is no fault of the code. Skewness and kurtosis of mixtures are not compared; parametric components only for p(v|t,x) and p(v|t,x,z)."
  },
  {
   "property": "C100",
   "status": "proved",
   "theorems": [
    "C100_weighted",
    "C100_unweighted",
    "C100_lists",
    "C100_succeeds",
    "C100_failure"
   ],
   "note": "The particle data are numpy arrays (lists would fail the comparisons). The note printed before a failing call is not modelled."
  },
  {
   "property": "C101",
   "status": "proved",
   "theorems": [
    "C101_marginals",
    "C101_conditionals",
    "C101_density",
    "C101_total",
    "C101_particles_inside",
    "C101_particles"
   ],
   "note": "Moments on the coarse grid are those of the coarse probabilities and are not compared with the fine ones."
  },
  {
   "property": "C102",
   "status": "proved",
   "theorems": [
    "C102_datacube",
    "C102_particles"
   ],
   "note": "Both cubes are evaluated with the same velocity interpolation weights, number of wavelengths and pixel velocity, which is what two cubes made from the same SSP object with the same velocity axis have."
  },
  {
   "property": "C103",
   "status": "proved",
   "theorems": [
    "C103_marginals",
    "C103_conditionals",
    "C103_means",
    "C103_central_moments",
    "C103_covariances",
    "C103_symmetric",
    "C103_symmetric_covariances",
    "C103_datacube",
    "C103_datacube_positions",
    "C103_parametric_marginals",
    "C103_parametric_conditionals",
    "C103_parametric_means",
    "C103_parametric_moments",
    "C103_parametric_datacube",
    "C103_parametric_datacube_positions",
    "C103_disk",
    "C103_parametric_symmetric",
    "C103_particles",
    "C103_on_edges_refuted"
   ],
   "note": "Datacubes of base components with mirrored velocities need an odd number of velocity bins, with the middle one at zero. A particle on an edge between bins counts for the bin above, and so does its mirror image, so that its image is not the mirrored one (C103_on_edges_refuted). Normal distributions of the library are assumed symmetric for growing disks."
  },
  {
   "property": "C104",
   "status": "proved",
   "theorems": [
    "C104_made",
    "C104_mass_weighted",
    "C104_marginals",
    "C104_conditionals",
    "C104_statistics",
    "C104_covariances",
    "C104_datacube",
    "C104_mixture_made",
    "C104_mixture_mass_weighted",
    "C104_mixture_marginals",
    "C104_mixture_conditionals",
    "C104_mixture_mean",
    "C104_mixture_central",
    "C104_mixture_covariance",
    "C104_mixture_l_moments",
    "C104_mixture_datacube",
    "C104_parametric_made",
    "C104_parametric_marginals",
    "C104_parametric_conditionals",
    "C104_parametric_without_v",
    "C104_particles"
   ],
   "note": "Mixtures return nan for moments where a member has no mass, the stored component does not; the claim is about the bins where every member has mass. Statistics of parametric components are not compared with those of the stored one: the former use the velocity distribution beyond the grid (C51, C82)."
  },
  {
   "property": "C105",
   "status": "proved",
   "theorems": [
    "C105_disk_records",
    "C105_disk_calls",
    "C105_disk_densities",
    "C105_disk_bins",
    "C105_disk_again",
    "C105_disk_restore",
    "C105_stream_records",
    "C105_stream_densities",
    "C105_stream_again",
    "C105_quantiles_refuted",
    "C105_order_refuted",
    "C105_track_refuted"
   ],
   "note": "Three limits are exhibited: the quantiles of set_p_t are not recorded, repeated calls in another order or after another set_p_t do not restore a disk, and a set_p_x_t of a stream that fails for want of points still leaves its parameters. np.digitize is modelled for increasing bins."
  },
  {
   "property": "C106",
   "status": "proved",
   "theorems": [
    "C106_disk_missing",
    "C106_disk_defaults",
    "C106_disk_history",
    "C106_disk_queries",
    "C106_disk_default_model",
    "C106_stream_values",
    "C106_stream_calls",
    "C106_stream_lists",
    "C106_stream_edits",
    "C106_stream_marginals",
    "C106_stream_queries",
    "C106_stream_default_model",
    "C106_caller_list_refuted",
    "C106_default_list_refuted"
   ],
   "note": "Refuted without the condition on edits: editing the list given to set_p_x_t changes a later set_mu_v, and editing theta_lims of a stream with default angles breaks the default for all streams. Lists have two entries."
  },
  {
   "property": "C107",
   "status": "proved",
   "theorems": [
    "C107_marginals",
    "C107_conditionals",
    "C107_light",
    "C107_moments",
    "C107_mixtures",
    "C107_datacube"
   ],
   "note": "The bound on means is reached (all mass in the first against all in the last velocity bin). The datacube bound is for nv = number of pixels and an interpolation that keeps the values at its knots. Mixtures are mass-weighted."
  },
  {
   "property": "C108",
   "status": "proved",
   "theorems": [
    "C108_map",
    "C108_negative_radius",
    "C108_bound_refuted",
    "C108_zero_radius"
   ],
   "note": "C108_bound_refuted shows that C45_mean_velocity needs its condition on rmax. The nan claims are for mass-weighted distributions."
  },
  {
   "property": "C109",
   "status": "proved",
   "theorems": [
    "C109_disk_pairs",
    "C109_stream_pairs",
    "C109_disk_other",
    "C109_quantiles_other",
    "C109_stream_track",
    "C109_stream_raised",
    "C109_stream_velocities",
    "C109_stream_velocity_errors",
    "C109_harmless_error_refuted"
   ],
   "note": "C109_harmless_error_refuted: theta_lims is assigned before the limits are unpacked, so a set_p_x_t that raises can make a later valid set_mu_v raise."
  },
  {
   "property": "C110",
   "status": "proved",
   "theorems": [
    "C110_marginals",
    "C110_conditionals",
    "C110_light_weighted_v_tx",
    "C110_where_they_agree",
    "C110_light_weighted_v_tx_refuted",
    "C110_means",
    "C110_central_moments",
    "C110_velocity_means",
    "C110_velocity_moments"
   ],
   "note": "C110_light_weighted_v_tx_refuted: for a component with two ages the light-weighted p(v|t,x) of the mixture and of its only member differ. Velocity moments given t, x and z are in C52."
  },
  {
   "property": "C111",
   "status": "proved",
   "theorems": [
    "C111_thinning",
    "C111_opposite",
    "C111_columns",
    "C111_zero",
    "C111_keep_all",
    "C111_same_as_default_refuted",
    "C111_cache_ignored",
    "C111_naturals"
   ],
   "note": "C111_same_as_default_refuted: without the cache file thin_age=thin_z=1 raises AttributeError, None or -1 reads the same files."
  },
  {
   "property": "C112",
   "status": "proved",
   "theorems": [
    "C112_rounded",
    "C112_naturals",
    "C112_one",
    "C112_rounded_to_one_refuted",
    "C112_errors",
    "C112_not_loaded",
    "C112_twice",
    "C112_twice_refuted"
   ],
   "note": "C112_rounded_to_one_refuted: a factor between 1 and 2 drops every pixel. C112_twice_refuted: binning by k and then by j is not binning by k*j."
  },
  {
   "property": "C113",
   "status": "proved",
   "theorems": [
    "C113_sequence",
    "C113_order",
    "C113_again",
    "C113_again_refuted",
    "C113_nothing_left",
    "C113_after_binning"
   ],
   "note": "C113_again_refuted: a truncation with a limit between pixels cannot be repeated."
  },
  {
   "property": "C114",
   "status": "proved",
   "theorems": [
    "C114_reset",
    "C114_forgotten",
    "C114_failed_truncation",
    "C114_failed_binning"
   ],
   "note": "The directory is changed by these calls only; C37_reset_refuted shows what reset does when the cache file is removed by others."
  },
  {
   "property": "C115",
   "status": "proved",
   "theorems": [
    "C115_pixels",
    "C115_wavelengths",
    "C115_all_wavelengths"
   ],
   "note": "In exact arithmetic; np.arange in floating point may give one pixel more. 299792 km/s is the code's value of the speed of light."
  }
 ]
}