# Formal model of popkinmocks: design

Source: `/repo` (prashjet/popkinmocks at the pinned commit, Python, read as text
and never run).  Model and proofs: `rocq/theories/`, Coq 8.16.1.  Claims:
`properties.jsonl`; which theorem settles which claim: `MANIFEST.json`.  Tests of
the theorems against wrong programs: `seeded/LOG.jsonl`.

## Approach

* Numbers (`Num.v`).  A numpy double is modelled as an exact real or one of
  `+inf`, `-inf`, `nan`, with IEEE rules for the special values.  Rounding,
  overflow, underflow and signed zeros are *not* modelled.
* Exceptions are values (`res A := Ok a | Err e`), one constructor per Python
  exception class.
* Arrays (`Arr.v`).  A numpy array is a shape and a function from index lists.
  Broadcasting, in-place operators, transposes, `moveaxis`, newaxis indexing,
  reductions, `cumsum`, `concatenate`, `reshape` and so on are implemented once
  following numpy's rules, including their exceptions.  The component code is
  then transcribed statement by statement on top of these.
* Strings (`PyStr.v`).  Distribution strings are real strings: `split`, `find`,
  `sorted`, `replace`, and `getattr` dispatch are modelled, so that axis-order
  bugs and malformed strings are inside the model.
* Aliasing (`Heap.v`, `HeapPar.v`, `HeapNoise.v`, `HeapMix.v`, `HeapMom.v`,
  `HeapParMom.v`, `HeapMixMom.v`).  For the claims on sharing, an
  array object is a view (address, shape, index map) of a buffer in a heap, and
  the same methods are transcribed a second time, distinguishing views from
  copies and in-place from fresh operations.  It is proved that the values agree
  with the array model above.
* Specifications (`Spec.v`, `*Spec.v`) know nothing of arrays, strings, axes or
  logarithms: bins are natural numbers, densities are real functions, marginals
  are nested finite sums, moments are the textbook formulas (for parametric
  velocities, limits of integrals of the normal density).
* `Repr.v`, `ParRepr.v` say when Python objects represent objects of the
  specification; `Build.v`, `ParBuild.v` prove that every object of the
  specification is represented, so that hypotheses of this form are not vacuous.
* Property theorems are in `Props_*.v`, each closed by `exact` of a lemma with
  `Print Assumptions` beneath and a concrete `Example` beside it.
* Where the faithful model violates a claim the deviation is itself proved
  (theorems named `..._refuted`), and the strongest true version is proved too.

## What is modelled, module by module

| source | model | left out |
|---|---|---|
| `ifu_cube.py` | `Cube.v` (all of the grid), `HeapMom.v` (getters with arrays as objects), `Plot.v` (`imshow`), `PlotAxes.v` (ticks, labels, `plot`, `plot_spectrum`) | drawing, colour bars, format strings and keyword arguments handed on to matplotlib |
| `model_grids.py` | `Ssps.v`, `Pad.v` (`_calculate_fourier_transform`) | `interp1d(kind="cubic")` is an arbitrary function of knots, values and point |
| `read_miles.py` | `ReadMiles.v`, `Thin.v` (thinning factors of any sign or None), `Bin.v` (real binning factors), `Cuts.v` (repeated truncation), `Ops.v` (histories of truncation, binning and reset) | FITS parsing (contents are an input), printing, thinning factors that are not integers or None, numerals of file names other than plain decimals |
| `components/base.py` | `Base.v` (distributions), `Moments.v` (moments, covariance, L-moments), `NormalL.v` (normal and excess L-moments; scipy's normal quantile function is an argument), `Datacube.v` (`evaluate_ybar`), `Save.v` (`dill_dump`, `save_numpy`); with arrays as objects `Heap.v` (distributions) and `HeapMom.v` (moments) | pickling (the file holds the object); `interp1d` in `evaluate_ybar` is an arbitrary linear map |
| `components/mixture.py` | `Mixture.v`, `MixStat.v` (inherited statistics), `mixture_ybar` in `Datacube.v`; with arrays and lists as objects `HeapMix.v` (constructor, distributions, datacube) and `HeapMixMom.v` (moments); lists changed after construction `MixList.v` | list changes while a method runs |
| `components/particle.py` | `Particle.v`, with `np.histogramdd`; data as arrays of any shapes `ParticleArr.v` | formatting of the printed note, and the note of a call that fails |
| `components/parametric.py` | `Parametric.v` (setters, enrichment model, 18 distributions), `ParMoments.v` (velocity moments), `ParCentral.v` (`get_central_moment_v…` called by name), `ParYbar.v` and `ParEval.v` (`evaluate_ybar`); with arrays as objects `HeapPar.v` (distributions) and `HeapParMom.v` (moments) | broadcasting of length-one axes in `einsum` |
| `components/growing_disk.py` | `GrowingDisk.v`; `Recs.v` (attributes kept for the record, with `np.digitize`), `Args.v` (defaults), `Lims.v` (limits of any number of values) | limits that are nested lists |
| `components/stream.py` | `Stream.v`; `Recs.v`, `Args.v` (defaults, lists as objects), `Lims.v` | as above |
| `noise.py` | `Noise.v` | the random generator: draws are arbitrary numbers |
| several cubes on one SSP object | `Sharing.v` | |
| sequences of setter and `evaluate_ybar` calls | `Life.v`, `ParEval.v` | |
| sequences of queries and edits of returned arrays | `HeapRun.v`, `HeapMixRun.v`, `HeapMomRun.v` | |

scipy's beta and normal distributions are the functions of a record `stats_lib`.
Theorems that need a property of them (monotone, limits, symmetric) assume it in
their statement, and the examples give an instance which has it.  `numpy.fft` is
defined by its sums (`Fft.v`).  The value of `scipy.special.factorial2(-1)`,
which depends on the scipy version, is a parameter.

Not modelled at all: floating point rounding, dtypes, warnings, printing,
performance, `setup.py`, the tests and documentation.

## Where the code violates a claim

Each line is a theorem, so a witness or a general failure is machine-checked.

* C09: `"zx_v"` is accepted and returns axes in another order; `"_t"` is accepted.
* C18: `get_covariance` of a pair given in the other order (`"zt_x"`) is wrong.
* C20: L-moments use a trapezoid rule on bin edges, so L-skewness depends on the origin: moving the grid by c adds c times the sum of cubed probabilities to the third L-moment.
* C25: plotting changes a cube whose ranges are lists, and then fails.
* C27: bin centres are not the template ages when these are unequally spaced.
* C30: after rebinning, `get_ssp` raises for valid ids or returns wrong labels.
* C31: tick positions after rebinning are those of the old bins.
* C36: `bin_pixels` drops everything when the factor divides the number of
  pixels, adds pixels that are not adjacent, and sums wavelengths.
* C37: without a cache file, default construction fails; `reset` can write
  truncated spectra as the cache.
* C47: unequal metallicity bins get an extra factor of their width.
* C48: depletion times between 10 and 13 are accepted and behave as 10.
* C50: p(t,v) of a parametric component does not sum to p(t).
* C51: with scipy where `factorial2(-1) = 0`, even velocity moments are wrong.
* C52: `get_noncentral_moment("v_txz")` uses the centre of the first metallicity.
* C53: correlations with v of parametric components can exceed one.
* C54: a stream's mean velocity keeps old angles; a `set_p_x_t` that raises still
  changes what a later `set_mu_v` does.
* C57: nan where one member has no mass; light-weighted moments given v of
  parametric members are wrong.
* C58: mixtures of mixtures raise AttributeError.
* C59: light-weighted mixture queries accept any string.
* C63, C73: odd numbers of pixels or velocity bins blur the shift.
* C64: grids without a bin at zero raise IndexError.
* C65: a second cube on the same SSPs breaks the first.
* C69, C72: `save_numpy` fails for everything but mixtures; the default directory
  fails; a directory without trailing separator writes beside it.
* C75: `get_mean("v_tx")` returns the stored array itself.
* C77: light weights are sums over the wavelengths before resampling, so the flux
  of a pixel is not the light-weighted p(x) times the total.
* C78: setters leave the datacube of the old parameters in `ybar`.
* C79: the L-dispersion is too large by a third of the sum of bin width times squared bin probability.
* C81: discrete line plots draw point i of n at i/(n-1), up to half a bin from where the ticks put it; spectra in log wavelength are drawn at the wrong wavelengths when both grids have the same size.
* C82: the L-mean velocity of a parametric component counts velocities outside the
  cube as zero, so it is not the mean velocity.
* C83: variance, shape, covariance and correlation of a mixture are nan where one
  member has no mass, although L-moments are right there.
* C85: means of a mixture of particle subsets are nan where one subset has no mass,
  those of the one component of all particles are finite.
* C89: with padded transforms `batch="none"` gives more wavelengths than the
  templates have, and the other modes raise ValueError.
* C90: `get_central_moment_v`, `_v_z`, `_v_tz` and `_v_xz` of a parametric component
  need an argument `mu`, undocumented and unused; the documented call raises TypeError.
* C92: L-skewness and L-kurtosis exceed any bound when the origin moves; a single
  occupied bin has L-kurtosis 1 where that of the uniform distribution is 0.
* C94: a mixture keeps the caller's list of components and a base component the
  caller's array, so later edits of these change them.
* C95: `get_variable_edges("v")` and six more getters return the cube's own
  arrays, and `get_mean("v_txz")` of a parametric component a view of `mu_v`.
* C97: after the caller's list of components becomes shorter, every missing component
  adds one to each bin of a marginal (its row of log probabilities stays zero); a longer
  list is cut silently, and means with one weight or one member left are broadcast.
* C98: light weighting should not matter given age and metallicity, but for parametric
  components the light-weighted p(v|t,z) exceeds the mass-weighted one by the factor all
  light over light within the velocity range: weighted distributions with v are
  normalised over that range, those without v are not.
* C103: a particle on an edge between two bins counts for the upper one, also after
  mirroring, so mirrored particles do not give the mirrored component.
* C105: the quantiles given to `set_p_t` are not recorded, so a disk cannot always be
  restored from its attributes; `mu_v_pars` and the like, repeated after another
  `set_p_t`, give other velocities; a `set_p_x_t` of a stream that fails for want of
  points leaves its parameters in `p_x_pars`.
* C106: `set_p_x_t` of a stream keeps the caller's list, so editing it changes what
  `set_mu_v` does; the default list is shared by all streams, so editing
  `stream.theta_lims` can make `set_p_x_t()` of another stream raise AssertionError.
* C108: `set_mu_v` accepts any `rmax`: a zero one makes p(v) nan, a negative one reverses
  the inner rotation, is infinite on an ellipse and exceeds `vmax` 27 times.
* C109: `set_p_x_t` of a stream keeps `theta_lims` before it unpacks the limits, so a call
  that raises can make a later valid `set_mu_v` raise.
* C110: light-weighted p(v|t,x) of a mixture and of its only parametric member differ.
* C111: without the cache file `thin_age=thin_z=1` raises AttributeError, while `None` or `-1`,
  which keep the same files, read them.
* C112: `bin_pixels` with a factor between 1 and 2 drops every pixel; binning by k and then by j
  is not binning by k*j.
* C113: `truncate_wavelengths` with a limit between pixels raises ValueError when repeated; one
  between two pixels leaves none.

Where the claim's text describes such a bug and asks for it to be exhibited, or
where the failure is limited (C54, C57, C63 and others), the manifest's note says
what holds and what does not.

## Trusted base

* The Coq 8.16.1 kernel.
* The axioms listed by `Print Assumptions`, all of the standard library:
  `ClassicalDedekindReals.sig_forall_dec` and `sig_not_dec` (the real numbers),
  `FunctionalExtensionality.functional_extensionality_dep` (used by the real
  numbers and for equality of arrays) and `Classical_Prop.classic`.  The table
  below lists which theorem uses which; it is written by `tools/axioms.py`.
* That the definitions transcribe the Python code and numpy's and scipy's
  behaviour: each carries the lines of `/repo` it models, and its
  simplifications.
* The statements in `properties.jsonl` and their reading in `Props_*.v` and the
  specification files.

## Axioms per theorem
<!-- axioms -->

no axioms (12 theorems):

C12_layout, C12_parametric_layout, C69_no_directory_refuted, C69_save_numpy_refuted, C72_contents,
C72_dill_dump_refuted, C72_npz_name, C72_save_numpy_refuted, C72_with_separator, C75_mean_is_shared,
C94_component_array_is_shared, C98_age_and_metallicity

sig_forall_dec (4 theorems):

C25_list_range_refuted, C25_mixed_ranges_raise, C25_plotting_keeps_tuple_ranges,
C36_divisible_refuted

functional_extensionality_dep, sig_forall_dec (112 theorems):

C05_light_total, C101_density, C101_particles_inside, C101_total, C103_on_edges_refuted,
C106_disk_defaults, C10_constructor_shape, C110_where_they_agree, C111_cache_ignored, C111_columns,
C111_keep_all, C111_naturals, C111_opposite, C111_same_as_default_refuted, C111_thinning, C111_zero,
C112_errors, C112_naturals, C112_not_loaded, C112_one, C112_rounded, C112_rounded_to_one_refuted,
C112_twice, C112_twice_refuted, C113_after_binning, C113_again, C113_again_refuted,
C113_nothing_left, C113_order, C113_sequence, C114_failed_binning, C114_failed_truncation,
C114_forgotten, C114_reset, C115_wavelengths, C15_low_orders, C21_cube_geometry, C21_first_edge,
C21_good_grid, C21_last_edge, C21_no_bins, C21_queries, C22_volume_conditional, C22_volume_marginal,
C22_volume_total, C23_unknown_variable, C24_image_orientation, C26_edges, C26_too_few, C27_centres,
C27_end_centres, C27_refuted, C28_factor_0, C28_factor_1, C28_rebin, C29_light_weights,
C30_error_refuted, C30_get_ssp, C30_label_refuted, C31_rebinned_refuted, C31_ticks,
C32_names_round_trip, C33_limits, C33_ragged, C34_columns, C34_listing_order, C35_out_of_range,
C35_truncation, C36_adjacent_refuted, C36_strided, C36_wavelength_refuted, C37_cached,
C37_default_error_refuted, C37_no_cache_refuted, C37_reset_refuted, C38_one_bin, C38_only_in_bounds,
C41_cube_coordinates, C43_needs_p_t, C46_dispersion, C55_weights_accepted, C55_weights_rejected,
C61_weighted_sum, C62_pixel_probability, C66_constant_snr, C66_negative_pixel, C66_sample,
C68_constant_snr, C68_constant_snr_heap, C68_not_evaluated, C68_ybar_plus_noise, C70_thinning,
C81_image_axes, C81_image_ticks, C81_image_ticks_vertical, C81_plot_columns_refuted,
C81_plot_discrete, C81_plot_discrete_refuted, C81_plot_errors, C81_plot_physical, C87_datacube,
C87_single_datacube, C88_constant_noise, C88_mixture_datacube, C94_datacube, C95_new_arrays,
C95_own_arrays, C97_datacube, C98_light_in_range, C99_light, C99_mixture_products, C99_products

functional_extensionality_dep, sig_forall_dec, sig_not_dec (21 theorems):

C18_arity_conditional, C18_arity_marginal, C60_base_convolution, C60_base_one_bin, C60_parametric,
C60_parametric_other_modes, C62_base, C62_parametric, C63_odd_displacement, C63_odd_refuted,
C63_shift, C67_negative_pixel, C67_sample, C67_shot_noise, C68_shot_noise, C68_shot_noise_heap,
C73_odd_bins_displacement, C73_odd_bins_refuted, C76_total_flux, C81_spectrum, C88_shot_noise

classic, functional_extensionality_dep, sig_forall_dec, sig_not_dec (438 theorems):

C01_marginals_are_sums, C02_light_weighting, C03_density_conditionals, C03_density_marginals,
C04_conditionals, C04_never_infinite, C05_conditionals_sum, C05_marginals_sum, C06_bayes_rule,
C06_product_rule, C07_marginal_consistency, C08_exp_of_log, C08_log_zero, C09_accepted_conditionals,
C09_axes_in_string_order_refuted, C09_empty_dependent_refuted, C09_misordered_is_alphabetical,
C09_unknown_marginals_raise, C100_failure, C100_lists, C100_succeeds, C100_unweighted,
C100_weighted, C101_conditionals, C101_marginals, C101_particles, C102_datacube, C102_particles,
C103_central_moments, C103_conditionals, C103_covariances, C103_datacube, C103_datacube_positions,
C103_disk, C103_marginals, C103_means, C103_parametric_conditionals, C103_parametric_datacube,
C103_parametric_datacube_positions, C103_parametric_marginals, C103_parametric_means,
C103_parametric_moments, C103_parametric_symmetric, C103_particles, C103_symmetric,
C103_symmetric_covariances, C104_conditionals, C104_covariances, C104_datacube, C104_made,
C104_marginals, C104_mass_weighted, C104_mixture_central, C104_mixture_conditionals,
C104_mixture_covariance, C104_mixture_datacube, C104_mixture_l_moments, C104_mixture_made,
C104_mixture_marginals, C104_mixture_mass_weighted, C104_mixture_mean, C104_parametric_conditionals,
C104_parametric_made, C104_parametric_marginals, C104_parametric_without_v, C104_particles,
C104_statistics, C105_disk_again, C105_disk_bins, C105_disk_calls, C105_disk_densities,
C105_disk_records, C105_disk_restore, C105_order_refuted, C105_quantiles_refuted, C105_stream_again,
C105_stream_densities, C105_stream_records, C105_track_refuted, C106_caller_list_refuted,
C106_default_list_refuted, C106_disk_default_model, C106_disk_history, C106_disk_missing,
C106_disk_queries, C106_stream_calls, C106_stream_default_model, C106_stream_edits,
C106_stream_lists, C106_stream_marginals, C106_stream_queries, C106_stream_values,
C107_conditionals, C107_datacube, C107_light, C107_marginals, C107_mixtures, C107_moments,
C108_bound_refuted, C108_map, C108_negative_radius, C108_zero_radius, C109_disk_other,
C109_disk_pairs, C109_harmless_error_refuted, C109_quantiles_other, C109_stream_pairs,
C109_stream_raised, C109_stream_track, C109_stream_velocities, C109_stream_velocity_errors,
C110_central_moments, C110_conditionals, C110_light_weighted_v_tx, C110_light_weighted_v_tx_refuted,
C110_marginals, C110_means, C110_velocity_means, C110_velocity_moments, C115_all_wavelengths,
C115_pixels, C11_light_scale_conditionals, C11_light_scale_marginals, C11_shift_conditionals,
C11_shift_light, C11_shift_mass, C12_history, C12_parametric_history, C12_parametric_query,
C12_query, C13_mean, C14_total_expectation, C15_central_moments, C15_noncentral_moments,
C16_variance, C17_skewness_kurtosis, C18_correlation, C18_covariance, C18_pair_order_refuted,
C19_l_dispersion, C19_l_dispersion_shift, C19_l_mean, C19_l_moments_of_x,
C20_l_skewness_origin_refuted, C20_third_moment_shift, C23_distribution_shape, C38_density,
C38_fractions, C38_no_particles, C38_no_weights, C38_weights_length, C39_nan, C39_note,
C39_outside_ignored, C40_order, C40_scale, C41_rigid_motion, C42_nan_shape,
C42_star_formation_history, C42_value_error, C43_age_interpolation, C44_disk_density,
C44_invalid_limits, C45_depletion_time, C45_dispersion, C45_invalid_arguments, C45_mean_velocity,
C45_sigma_limits_ignored, C46_invalid_angles, C46_mean_velocity, C46_stream_density,
C46_velocity_needs_track, C47_bin_probability_refuted, C47_calibration, C47_metallicity,
C48_above_ten_refuted, C48_nearest, C49_conditionals, C49_growing_disk, C49_light_weighted_v_tx,
C49_marginals, C49_stored_factors, C49_stream, C50_lost_mass, C50_summation_refuted,
C50_v_tx_normalisation, C51_central_moments, C51_factorial2_refuted, C51_means, C51_moments,
C51_moments_unique, C51_variance, C52_centre_of_first_z, C52_centre_refuted, C52_mixture_centre,
C52_mixture_refuted, C53_age_velocity, C53_refuted, C53_without_v, C54_disk_calls,
C54_disk_conditionals, C54_disk_in_order, C54_disk_marginals, C54_disk_memory, C54_disk_overwritten,
C54_disk_rejected, C54_disk_replay, C54_stream_angles_refuted, C54_stream_calls,
C54_stream_conditionals, C54_stream_failed_call_refuted, C54_stream_marginals, C54_stream_memory,
C54_stream_overwritten, C54_stream_rejected, C56_conditional_shares, C56_conditionals,
C56_marginal_shares, C56_marginals, C56_mixed_conditionals, C56_mixed_marginals,
C57_central_moments, C57_empty_member_refuted, C57_light_given_v, C57_light_given_v_refuted,
C57_mean, C57_mixed_central_moments, C57_mixed_means, C57_mixed_velocity_means,
C57_mixed_velocity_moments, C58_nested_refuted, C59_light_any_string_refuted,
C59_light_order_ignored_refuted, C59_mass_raises, C60_base, C60_base_other_modes,
C61_combined_density, C64_accepted, C64_no_zero_refuted, C64_rejected, C64_symmetric_refuted,
C65_base_refuted, C65_before_and_after_refuted, C65_last_wins, C65_parametric_refuted,
C65_parametric_size_refuted, C65_same_width, C69_mixture, C69_mixture_not_evaluated,
C71_files_to_cube, C74_calibrated_table, C74_mean_metallicity, C75_refuted, C76_component,
C76_disk_ready, C76_growing_disk, C76_mixture, C76_stream, C76_stream_ready, C77_base,
C77_parametric, C77_refuted, C77_resampled_refuted, C78_answers, C78_last, C78_never,
C78_parameters, C78_stale_refuted, C79_histogram, C79_unique, C80_excess, C80_normal,
C81_spectrum_refuted, C82_central_moments, C82_covariance, C82_excess_l_moments, C82_l_mean,
C82_l_moments, C82_l_moments_of_x, C82_mean, C82_moments, C82_shape, C82_variance,
C82_velocity_l_mean, C82_velocity_l_mean_refuted, C82_velocity_l_moments, C83_correlation,
C83_covariance, C83_empty_member_refuted, C83_l_moments, C83_mixed_correlation,
C83_mixed_covariance, C83_mixed_l_moments, C83_mixed_shape, C83_mixed_variance, C83_shape,
C83_variance, C84_given_t_and_x, C84_mixture, C84_mixture_unique, C84_one_mean, C84_shape,
C85_built, C85_conditionals, C85_datacube, C85_empty_set_refuted, C85_marginals, C85_moments,
C85_notes, C86_binning_error, C86_conditionals, C86_light_conditionals, C86_light_marginals,
C86_light_moments, C86_marginals, C87_central_moments, C87_conditionals, C87_marginals, C87_means,
C87_single_distributions, C87_single_moments, C87_velocity_means, C87_velocity_moments,
C88_central_moments, C88_conditionals, C88_datacube, C88_marginals, C88_means,
C88_mixture_central_moments, C88_mixture_conditionals, C88_mixture_marginals, C88_mixture_means,
C88_mixture_velocity_means, C88_mixture_velocity_moments, C88_parametric_conditionals,
C88_parametric_datacube, C88_parametric_marginals, C88_templates, C89_batches_refuted, C89_datacube,
C89_default, C89_no_wrap, C89_padded, C89_parametric_batches_refuted, C89_parametric_datacube,
C89_power_of_two, C89_unknown, C90_central_moments, C90_documented_call_refuted,
C90_given_age_and_position, C90_order_zero_refuted, C90_same_as_get_central_moment,
C91_central_moments, C91_conditionals, C91_correlations, C91_covariances, C91_datacube,
C91_dispersions, C91_l_dispersions, C91_l_means, C91_marginals, C91_means,
C91_mixture_central_moments, C91_mixture_conditionals, C91_mixture_marginals, C91_mixture_means,
C91_mixture_velocity_means, C91_mixture_velocity_moments, C91_parametric_central_moments,
C91_parametric_conditionals, C91_parametric_datacube, C91_parametric_marginals,
C91_parametric_means, C91_shapes, C92_base, C92_mixed, C92_mixture, C92_one_bin_refuted,
C92_parametric, C92_unbounded_refuted, C92_units, C93_density_of_mean, C93_enrichment,
C94_base_member, C94_history, C94_list_is_shared, C94_parametric_member, C94_query,
C95_base_history, C95_base_part, C95_base_query, C95_edited_edges, C95_mixture_history,
C95_mixture_query, C95_own_arrays_refuted, C95_parametric_history, C95_parametric_part,
C95_parametric_query, C95_shared_means, C96_covariance_by_means, C96_mixture_covariance,
C96_mixture_variance, C96_parametric, C96_total_covariance, C96_total_variance, C97_empty,
C97_longer, C97_moments_fail, C97_one_member, C97_one_weight, C97_same_length, C97_shorter,
C97_shorter_conditional, C98_covariances, C98_distributions, C98_mixture_covariance,
C98_mixture_distributions, C98_mixture_members, C98_mixture_statistics, C98_parametric,
C98_parametric_statistics, C98_parametric_velocities, C98_parametric_velocity_refuted,
C98_spread_distribution, C98_spread_mean, C98_statistics, C99_covariances, C99_distributions,
C99_light_free, C99_light_free_statistics, C99_mixture_distributions, C99_mixture_refuted,
C99_mixture_statistics, C99_mixture_uncorrelated, C99_parametric, C99_statistics, C99_test,
C99_uncorrelated
