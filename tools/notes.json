{
 "C09": {
  "note": "Proved: unknown marginal strings raise AttributeError; every accepted conditional string splits into disjoint variables. Refuted parts: misordered dependent part ('zx_v') and empty dependent part ('_t') are accepted."
 },
 "C62": {
  "note": "Base: for interpolations that keep the value at frequency 0, as any interpolant does."
 },
 "C63": {
  "note": "Odd numbers of pixels refuted: C63_odd_refuted."
 },
 "C64": {
  "note": "Refuted as stated: C64_no_zero_refuted, C64_symmetric_refuted (IndexError)."
 },
 "C65": {
  "note": "Refuted. Parametric: the datacube is consistent with the pixels of the last cube, so its size and pixel width change; see C65_parametric_size_refuted."
 },
 "C73": {
  "note": "Refuted for odd numbers of bins: C73_odd_bins_refuted."
 },
 "C42": {
  "note": "Non-positive shape parameters are accepted and store nan: C42_nan_shape."
 },
 "C47": {
  "note": "Bin probabilities as stated for bins of equal width; refuted for unequal bins (extra width factor): C47_bin_probability_refuted."
 },
 "C48": {
  "note": "Nearest table entry proved; depletion times above 10 are silently treated as 10: C48_above_ten_refuted."
 },
 "C50": {
  "note": "Refuted as stated: C50_summation_refuted; exact difference in C50_lost_mass."
 },
 "C51": {
  "note": "Moments are stated as limits of Riemann integrals of the normal density. factorial2(-1) is a parameter of the model: with 1 (SciPy up to 1.11) all orders hold, with 0 (SciPy 1.12 and later) order 0 and every even order fail, see the _refuted theorem."
 },
 "C52": {
  "note": "Holds on the component itself about its own mean (C51_central_moments); refuted for other centres, for every component, and for mixtures with the value 8 in place of 4."
 },
 "C53": {
  "note": "Pairs without v are in [-1,1]; refuted with v by a component whose correlation exceeds 10. The stand-in for the normal cdf in the refutation is the logistic function."
 },
 "C56": {
  "note": "C56_mixed_* cover members that are base or parametric components in any combination; the others compare with a plain component, which exists for base members only."
 },
 "C57": {
  "note": "C57_mixed_* cover parametric members. For them light-weighted moments given v are refuted: the shares of light are not those of the velocity range."
 },
 "C12": {
  "note": "Arrays are views of buffers in a heap; base and parametric components. The caller may overwrite returned arrays between calls. Mixtures' own methods are not on the heap."
 },
 "C68": {
  "note": "'Leaves ybar unchanged' is C68_*_heap; the other theorems are about values."
 },
 "C75": {
  "note": "Refuted: get_mean('v_tx') of a parametric component returns the stored array."
 },
 "C54": {
  "note": "Holds for GrowingDisk. For Stream two parts are refuted: the mean velocity keeps the angles of the set_p_x_t call that preceded it, and a set_p_x_t call that raises (no points on the track) still stores its angles."
 },
 "C77": {
  "note": "Holds for templates whose flux is a common multiple of their light weights; refuted in general (C77_refuted) and for resampled templates (C77_resampled_refuted)."
 },
 "C78": {
  "note": "ybar is that of the last successful evaluation; refuted that it follows the parameters (C78_stale_refuted)."
 },
 "C79": {
  "note": "The L-mean is exact; L-dispersion and third L-moment are off by the stated amounts."
 },
 "C81": {
  "note": "Images and physical spacing hold; discrete spacing (C81_plot_discrete_refuted, C81_plot_columns_refuted) and log-sampled spectra (C81_spectrum_refuted) are refuted."
 },
 "C82": {
  "note": "Holds for ages, positions and metallicities; the L-mean velocity differs from the mean velocity (C82_velocity_l_mean_refuted)."
 },
 "C83": {
  "note": "Holds where every member has mass; a bin in which one member is empty gives nan (C83_empty_member_refuted), except for L-moments."
 },
 "C84": {
  "note": "For scipy versions where factorial2(-1) is 1 (see C51)."
 },
 "C85": {
  "note": "Means and moments agree where every set has mass; where one set is empty those of the mixture are nan (C85_empty_set_refuted)."
 },
 "C87": {
  "note": "Velocity means and moments are compared where every member has mass; a single member is a base component."
 },
 "C88": {
  "note": "The interpolation of the templates is a parameter, assumed finite on finite values and homogeneous (the interpolation of k times the values is k times the interpolation), as the cubic spline of scipy is. Parametric components: distributions and datacubes; velocity moments of mixtures where every member has light."
 },
 "C89": {
  "note": "The datacube has as many wavelengths as the padded templates, more than Xw and the wavelength attribute. False as stated for batch='column' and 'spaxel', which allocate Xw.shape[0] wavelengths and raise ValueError unless that is a power of two (C89_batches_refuted, C89_parametric_batches_refuted). np.log2 is in real arithmetic."
 },
 "C90": {
  "note": "False as documented for v, v_z, v_tz and v_xz, whose mu has no default: the documented call raises TypeError (C90_documented_call_refuted). With any mu they are right. Where scipy's factorial2(-1) is 0 the moment of order 0 given age and position is 0 (C90_order_zero_refuted)."
 },
 "C91": {
  "note": "Velocity moments of mixtures where every member is present; mean and moments of parametric components are those of the velocity. The L-skewness depends on the origin (C20). Velocities enter the datacube through the fixed speed of light, so their unit is kept there."
 },
 "C92": {
  "note": "As L-moments of the distribution the ratios are wrong: one bin (C92_one_bin_refuted), any origin (C92_units, C92_unbounded_refuted, where the L-skewness even has the wrong sign). What the code computes is characterised exactly for base components, parametric components (t, z) and mixtures."
 },
 "C93": {
  "note": "The mean is that of the normal distribution before truncation to the metallicity bins; C93_density_of_mean shows that it determines the density. Extends C47, C48 and C74, whose tables it composes."
 },
 "C94": {
  "note": "C94_history composes the constructor with an arbitrary history. Edits of the list replace entries; its length is fixed. C94_list_is_shared shows that an edit of the list changes answers. The members are base or parametric components (C94_base_member, C94_parametric_member), or anything with methods that make new arrays."
 },
 "C95": {
  "note": "The heap models are in HeapMom.v, HeapParMom.v and HeapMixMom.v. For parametric components the histories exclude get_mean of v_tx and v_txz (C95_shared_means says what these return). C95_own_arrays_refuted: editing the edges returned for v changes later answers; C95_edited_edges says to what. Mixtures are followed from their constructor on; their members are base or parametric components (C95_base_part, C95_parametric_part)."
 },
 "C96": {
  "note": "averaged (TotalSpec.v) sums over the occupied bins only, since moments are nan elsewhere. Velocities of parametric components are left out: their moments are those of normal distributions, with probabilities of the cube's bins not summing to one (C84 has the law of total variance for these)."
 },
 "C97": {
  "note": "Light-weighted distributions of shortened lists are modelled but no value is stated for them; the same-length and longer-list theorems cover both weightings."
 },
 "C98": {
  "note": "For mixtures the statistics are compared where every member has mass (elsewhere C58 and C85 give nan); skewness, kurtosis and correlation of mixtures, and mixtures with parametric members, are not compared."
 },
 "C99": {
  "note": "C99_mixture_refuted shows that independence in every member does not make it hold in the mixture; that is no fault of the code. Skewness and kurtosis of mixtures are not compared; parametric components only for p(v|t,x) and p(v|t,x,z)."
 },
 "C100": {
  "note": "The particle data are numpy arrays (lists would fail the comparisons). The note printed before a failing call is not modelled."
 },
 "C101": {
  "note": "Moments on the coarse grid are those of the coarse probabilities and are not compared with the fine ones."
 },
 "C102": {
  "note": "Both cubes are evaluated with the same velocity interpolation weights, number of wavelengths and pixel velocity, which is what two cubes made from the same SSP object with the same velocity axis have."
 },
 "C103": {
  "note": "Datacubes of base components with mirrored velocities need an odd number of velocity bins, with the middle one at zero. A particle on an edge between bins counts for the bin above, and so does its mirror image, so that its image is not the mirrored one (C103_on_edges_refuted). Normal distributions of the library are assumed symmetric for growing disks."
 },
 "C104": {
  "note": "Mixtures return nan for moments where a member has no mass, the stored component does not; the claim is about the bins where every member has mass. Statistics of parametric components are not compared with those of the stored one: the former use the velocity distribution beyond the grid (C51, C82)."
 },
 "C105": {
  "note": "Three limits are exhibited: the quantiles of set_p_t are not recorded, repeated calls in another order or after another set_p_t do not restore a disk, and a set_p_x_t of a stream that fails for want of points still leaves its parameters. np.digitize is modelled for increasing bins."
 },
 "C106": {
  "note": "Refuted without the condition on edits: editing the list given to set_p_x_t changes a later set_mu_v, and editing theta_lims of a stream with default angles breaks the default for all streams. Lists have two entries."
 },
 "C107": {
  "note": "The bound on means is reached (all mass in the first against all in the last velocity bin). The datacube bound is for nv = number of pixels and an interpolation that keeps the values at its knots. Mixtures are mass-weighted."
 },
 "C108": {
  "note": "C108_bound_refuted shows that C45_mean_velocity needs its condition on rmax. The nan claims are for mass-weighted distributions."
 },
 "C109": {
  "note": "C109_harmless_error_refuted: theta_lims is assigned before the limits are unpacked, so a set_p_x_t that raises can make a later valid set_mu_v raise."
 },
 "C110": {
  "note": "C110_light_weighted_v_tx_refuted: for a component with two ages the light-weighted p(v|t,x) of the mixture and of its only member differ. Velocity moments given t, x and z are in C52."
 },
 "C111": {
  "note": "C111_same_as_default_refuted: without the cache file thin_age=thin_z=1 raises AttributeError, None or -1 reads the same files."
 },
 "C112": {
  "note": "C112_rounded_to_one_refuted: a factor between 1 and 2 drops every pixel. C112_twice_refuted: binning by k and then by j is not binning by k*j."
 },
 "C113": {
  "note": "C113_again_refuted: a truncation with a limit between pixels cannot be repeated."
 },
 "C114": {
  "note": "The directory is changed by these calls only; C37_reset_refuted shows what reset does when the cache file is removed by others."
 },
 "C115": {
  "note": "In exact arithmetic; np.arange in floating point may give one pixel more. 299792 km/s is the code's value of the speed of light."
 }
}
