{"id": "C01", "title": "Marginals are sums of the joint", "statement": "For a component built from a log joint density, get_p(S, density=False) for each of the 15 alphabetical variable strings S over {t,v,x,z} succeeds, has one axis per variable in the order of the string (two for x) with the cube's bin counts, and each entry is the sum of the joint bin probabilities (density times bin volume) over all variables not in S.", "quantifier": "all grids (any bin counts >= 1, any increasing bin edges), all non-negative joint densities including zeros, all 15 strings, all in-range indices", "why_tests_cant": "Tests sample a handful of fixed arrays with allclose; the claim ranges over every array content and grid size.", "anchors": ["popkinmocks/components/base.py:Component.get_p", "popkinmocks/components/base.py:Component._get_log_marginal_distribution", "popkinmocks/components/base.py:Component._get_log_p_tvxz", "popkinmocks/components/base.py:Component._get_log_p_*"]}
{"id": "C02", "title": "Light weighting", "statement": "get_p(S, density=False, light_weighted=True) equals the marginal over S of the joint bin probability times the SSP light weight L(t,z), divided by the total of that product, so it always sums to one, whatever the normalisation of the stored density.", "quantifier": "all grids, densities, non-negative light weights with positive total light, all 15 strings", "why_tests_cant": "Tests sample a handful of fixed arrays with allclose; the claim ranges over every array content and grid size.", "anchors": ["popkinmocks/components/base.py:Component._get_log_p_tvxz", "popkinmocks/model_grids.py:milesSSPs.get_light_weights"]}
{"id": "C03", "title": "Density and probability differ by the bin volume", "statement": "For every marginal or conditional string, get_p(..., density=True) equals get_p(..., density=False) divided by the product of the bin widths of the dependent variables (and only those), mass- or light-weighted.", "quantifier": "all grids with non-uniform bins, all 15 marginal and 50 conditional strings, both weightings", "why_tests_cant": "Tests sample a handful of fixed arrays with allclose; the claim ranges over every array content and grid size.", "anchors": ["popkinmocks/components/base.py:Component.get_p", "popkinmocks/ifu_cube.py:IFUCube.construct_volume_element"]}
{"id": "C04", "title": "Conditionals are joint over marginal, nan exactly on empty conditioners", "statement": "For each of the 50 conditional strings A_C, get_p succeeds, has axes A then C in string order, and at every bin where the marginal of C is positive it equals joint(A,C)/marginal(C); where the marginal of C is zero every entry is nan. It is never infinite.", "quantifier": "all grids, all densities including ones with empty bins, all 50 strings, both weightings, density or probability", "why_tests_cant": "Empty conditioning bins and axis order for all 50 strings are not enumerable by examples over array contents.", "anchors": ["popkinmocks/components/base.py:Component._get_log_conditional_distribution", "popkinmocks/ifu_cube.py:IFUCube.construct_volume_element"]}
{"id": "C05", "title": "Normalisation of every distribution", "statement": "Marginals sum to the total mass of the input (one for a normalised density); each conditional sums to exactly one over its dependent variables at each conditioner with positive mass; light-weighted marginals sum to one.", "quantifier": "all grids, densities, strings and weightings", "why_tests_cant": "Tests sample a handful of fixed arrays with allclose; the claim ranges over every array content and grid size.", "anchors": ["popkinmocks/components/base.py:Component.get_p"]}
{"id": "C06", "title": "Product rule and Bayes' rule between returned arrays", "statement": "Wherever the conditioner has positive mass, get_p(A_C) * get_p(C) equals get_p(A union C) with axes rearranged, both for densities and probabilities; hence get_p(A_C)*get_p(C) and get_p(C_A)*get_p(A) agree.", "quantifier": "all pairs of disjoint non-empty variable sets, all grids, densities, weightings", "why_tests_cant": "Tests sample a handful of fixed arrays with allclose; the claim ranges over every array content and grid size.", "anchors": ["popkinmocks/components/base.py:Component.get_p"]}
{"id": "C07", "title": "Marginal consistency", "statement": "Summing the probability array of any variable set over one of its variables gives the probability array of the smaller set; the returned marginals of one component can never contradict each other.", "quantifier": "all pairs S, S+{variable}, grids, densities, weightings", "why_tests_cant": "Tests sample a handful of fixed arrays with allclose; the claim ranges over every array content and grid size.", "anchors": ["popkinmocks/components/base.py:Component.get_p"]}
{"id": "C08", "title": "get_p is the exponential of get_log_p", "statement": "get_p = exp(get_log_p) entry by entry for every string and option; probabilities are finite and non-negative wherever defined and the log is -inf exactly where the probability is zero.", "quantifier": "all grids, densities, strings, options", "why_tests_cant": "Tests sample a handful of fixed arrays with allclose; the claim ranges over every array content and grid size.", "anchors": ["popkinmocks/components/base.py:Component.get_p", "popkinmocks/components/base.py:Component.get_log_p"]}
{"id": "C09", "title": "Unknown or misordered distribution strings", "statement": "A marginal string which is not one of the 15 alphabetical ones raises AttributeError (never returns numbers). A conditional string whose parts do not form distinct variables raises. Observed deviation: a conditional with a misordered dependent part (for example 'zx_v') does not raise when density=False and returns the array with axes in alphabetical, not string, order.", "quantifier": "all Python strings", "why_tests_cant": "There are infinitely many strings; the property is about all of them.", "anchors": ["popkinmocks/components/base.py:Component._get_log_marginal_distribution", "popkinmocks/components/base.py:Component._get_log_conditional_distribution"]}
{"id": "C10", "title": "Constructor rejects wrongly shaped densities", "statement": "Component(cube, log_p) raises ValueError exactly when the array's shape differs from the cube's (nt,nv,nx1,nx2,nz); otherwise it stores the array.", "quantifier": "all shapes and cubes", "why_tests_cant": "The shape space is unbounded.", "anchors": ["popkinmocks/components/base.py:Component.__init__", "popkinmocks/ifu_cube.py:IFUCube.get_distribution_shape"]}
{"id": "C11", "title": "Scale invariance", "statement": "Adding a constant to the log density (scaling the mass) leaves all conditionals and all light-weighted distributions unchanged and scales mass-weighted marginals by the constant; scaling all light weights by a positive constant changes nothing.", "quantifier": "all grids, densities, positive constants, strings", "why_tests_cant": "Tests sample a handful of fixed arrays with allclose; the claim ranges over every array content and grid size.", "anchors": ["popkinmocks/components/base.py:Component._get_log_p_tvxz", "popkinmocks/components/base.py:Component._get_log_conditional_distribution"]}
{"id": "C12", "title": "Queries do not disturb the component", "statement": "Any sequence of get_p / get_log_p calls in any order leaves the stored log density unchanged, so every call returns what it would have returned first, although the code edits arrays in place.", "quantifier": "all finite histories of calls with any strings and flags", "why_tests_cant": "Tests check one or two calls; aliasing bugs show only in particular call histories.", "anchors": ["popkinmocks/components/base.py:Component._get_log_p_tvxz"]}
{"id": "C13", "title": "Mean", "statement": "get_mean(a_C) equals sum(value * p(a|C)) with the bin centres as values for a in t,v,z, and for x a leading axis of size 2 holding the means of x1 and x2; it lies between the smallest and largest bin centre; it is nan exactly where the conditioner has zero mass.", "quantifier": "all grids, normalised densities, all dependent variables, all conditioner sets, both weightings", "why_tests_cant": "Tests sample a handful of fixed arrays with allclose; the claim ranges over every array content and grid size.", "anchors": ["popkinmocks/components/base.py:Component.get_mean", "popkinmocks/ifu_cube.py:IFUCube.get_variable_values"]}
{"id": "C14", "title": "Law of total expectation", "statement": "get_mean(a) equals the get_p(C)-weighted sum of get_mean(a_C) over conditioner bins with positive mass.", "quantifier": "all grids, normalised densities, variables, conditioners, weightings", "why_tests_cant": "Tests sample a handful of fixed arrays with allclose; the claim ranges over every array content and grid size.", "anchors": ["popkinmocks/components/base.py:Component.get_mean"]}
{"id": "C15", "title": "Noncentral and central moments", "statement": "get_noncentral_moment(a_C, j, mu) equals sum((value - mu)^j p(a|C)) for every order j and centre array mu of the conditioner's shape; get_central_moment uses mu = get_mean; order 0 is 1, central order 1 is 0.", "quantifier": "all grids, densities, orders j, centre arrays, variables and conditioners", "why_tests_cant": "Tests sample a handful of fixed arrays with allclose; the claim ranges over every array content and grid size.", "anchors": ["popkinmocks/components/base.py:Component.get_noncentral_moment", "popkinmocks/components/base.py:Component.get_central_moment"]}
{"id": "C16", "title": "Variance and dispersion", "statement": "get_variance is non-negative, equals E[a^2|C] - E[a|C]^2, is at most a quarter of the squared range of bin centres (Popoviciu), and get_dispersion is its square root; variance is zero exactly when all mass of a|C sits in one value.", "quantifier": "all grids, densities, variables and conditioners", "why_tests_cant": "Tests sample a handful of fixed arrays with allclose; the claim ranges over every array content and grid size.", "anchors": ["popkinmocks/components/base.py:Component.get_variance", "popkinmocks/components/base.py:Component.get_dispersion"]}
{"id": "C17", "title": "Skewness and kurtosis", "statement": "Where the variance is positive, get_skewness and get_kurtosis are the standardised third and fourth central moments, kurtosis >= skewness^2 + 1, and get_excess_kurtosis = get_kurtosis - 3; where the variance is zero they are nan.", "quantifier": "all grids, densities, variables and conditioners", "why_tests_cant": "Tests sample a handful of fixed arrays with allclose; the claim ranges over every array content and grid size.", "anchors": ["popkinmocks/components/base.py:Component.get_skewness", "popkinmocks/components/base.py:Component.get_kurtosis", "popkinmocks/components/base.py:Component.get_excess_kurtosis", "popkinmocks/components/base.py:Component.get_normalised_central_moment"]}
{"id": "C18", "title": "Covariance and correlation", "statement": "get_covariance(ab_C) = E[ab|C] - E[a|C]E[b|C] for every ordered pair including those with x (leading axis 2); get_correlation lies in [-1,1] wherever both variances are positive. ValueError unless exactly two dependent variables.", "quantifier": "all grids, densities, pairs, conditioners, weightings", "why_tests_cant": "The bound is an inequality over all densities (Cauchy-Schwarz).", "anchors": ["popkinmocks/components/base.py:Component.get_covariance", "popkinmocks/components/base.py:Component.get_correlation"]}
{"id": "C19", "title": "L-moments", "statement": "get_l_mean equals get_mean exactly; get_l_dispersion is non-negative and unchanged by shifting the variable; L-moments of x raise ValueError.", "quantifier": "all grids, normalised densities, variables t,v,z, conditioners", "why_tests_cant": "Tests sample a handful of fixed arrays with allclose; the claim ranges over every array content and grid size.", "anchors": ["popkinmocks/components/base.py:Component.get_l_moment", "popkinmocks/components/base.py:Component.get_l_mean", "popkinmocks/components/base.py:Component.get_l_dispersion"]}
{"id": "C20", "title": "L-skewness should not depend on the origin", "statement": "A standardised shape statistic should be unchanged by shifting the variable and be at most 1 in size. Refuted: the trapezoid rule used makes get_l_skewness depend on the origin, and it exceeds 1 for a distribution with all mass in one bin away from the origin.", "quantifier": "all grids and densities", "why_tests_cant": "Needs a universally quantified invariance or a counterexample with proof.", "anchors": ["popkinmocks/components/base.py:Component.get_l_moment", "popkinmocks/components/base.py:Component.get_l_skewness"]}
{"id": "C21", "title": "Cube grid geometry", "statement": "IFUCube builds uniform pixel and velocity grids whose edges start and end exactly at the requested ranges, whose centres are midpoints of consecutive edges, with get_variable_size bins; get_variable_extent returns the first and last edges.", "quantifier": "all positive sizes and ranges lo<hi", "why_tests_cant": "Tests sample a handful of fixed arrays with allclose; the claim ranges over every array content and grid size.", "anchors": ["popkinmocks/ifu_cube.py:IFUCube.__init__", "popkinmocks/ifu_cube.py:IFUCube.get_variable_values", "popkinmocks/ifu_cube.py:IFUCube.get_variable_edges", "popkinmocks/ifu_cube.py:IFUCube.get_variable_extent"]}
{"id": "C22", "title": "Volume elements", "statement": "construct_volume_element returns, for every marginal or conditional string, the product of the widths of the dependent variables' bins, with shape broadcastable against the distribution; the volume elements of a marginal sum to the product of the variables' extents.", "quantifier": "all cubes and valid strings", "why_tests_cant": "Tests sample a handful of fixed arrays with allclose; the claim ranges over every array content and grid size.", "anchors": ["popkinmocks/ifu_cube.py:IFUCube.construct_volume_element"]}
{"id": "C23", "title": "Shape and variable queries", "statement": "get_distribution_shape(S) is the shape of get_p(S) for all 65 valid strings; the variable queries raise ValueError exactly for names other than t,v,x1,x2,z.", "quantifier": "all strings, all cubes", "why_tests_cant": "All strings cannot be enumerated.", "anchors": ["popkinmocks/ifu_cube.py:IFUCube.get_distribution_shape", "popkinmocks/ifu_cube.py:IFUCube.get_variable_size", "popkinmocks/ifu_cube.py:IFUCube.get_variable_values"]}
{"id": "C24", "title": "Image orientation", "statement": "cube.imshow puts img[i,j] at the pixel whose horizontal extent is bin i of the first view variable and vertical extent is bin j of the second, increasing upwards.", "quantifier": "all image sizes and indices", "why_tests_cant": "Tests sample a handful of fixed arrays with allclose; the claim ranges over every array content and grid size.", "anchors": ["popkinmocks/ifu_cube.py:IFUCube.imshow"]}
{"id": "C25", "title": "Plotting does not change the cube", "statement": "Plotting an image should leave the cube's coordinate ranges unchanged in any history. Holds when ranges were given as tuples; refuted when x1rng was given as a list: each imshow extends that list in place.", "quantifier": "all histories of imshow calls and range representations", "why_tests_cant": "Visible only after a history of calls with list-valued ranges.", "anchors": ["popkinmocks/ifu_cube.py:IFUCube.imshow", "popkinmocks/ifu_cube.py:IFUCube.get_variable_extent"]}
{"id": "C26", "title": "Age and metallicity bin edges bracket the templates", "statement": "Every SSP age/metallicity lies strictly inside its bin, consecutive bins share an edge midway between consecutive templates, and edges strictly increase (provided the first edge is not clamped past the first value).", "quantifier": "all strictly increasing template grids with at least two values", "why_tests_cant": "Tests sample a handful of fixed arrays with allclose; the claim ranges over every array content and grid size.", "anchors": ["popkinmocks/model_grids.py:milesSSPs._get_par_edge_lims"]}
{"id": "C27", "title": "Bin centres versus template values", "statement": "The bin centre reported for an SSP equals its template age exactly when the neighbouring spacings are equal; refuted in general: on non-uniform grids the reported t and z are not the template's.", "quantifier": "all template grids", "why_tests_cant": "Quantifies over all grids.", "anchors": ["popkinmocks/model_grids.py:milesSSPs._get_par_edge_lims", "popkinmocks/model_grids.py:modelGrid._get_par_grid"]}
{"id": "C28", "title": "Rebinning partitions bins and conserves flux", "statement": "For every pair of rebin factors the new edges are a subset of the old with the same ends, the new bins partition the old ones, and the bin-area weighted total of the templates is unchanged at each wavelength; constant templates stay constant; factor 1 is the identity.", "quantifier": "all grid sizes, rebin factors >= 1 (dividing or not), template values", "why_tests_cant": "Non-dividing factors and all sizes cannot be enumerated.", "anchors": ["popkinmocks/model_grids.py:milesSSPs._rebin_par_grid"]}
{"id": "C29", "title": "Light weights", "statement": "After cube construction light_weights[t,z] is the wavelength sum of the template whose metallicity index is z and age index t, also after rebinning.", "quantifier": "all template matrices and grid sizes", "why_tests_cant": "Tests sample a handful of fixed arrays with allclose; the claim ranges over every array content and grid size.", "anchors": ["popkinmocks/model_grids.py:milesSSPs.get_light_weights"]}
{"id": "C30", "title": "Retrieving a single template", "statement": "get_ssp(i) returns the age, metallicity and spectrum of the same template. Holds without rebinning; refuted after rebinning, where the parameter index table is stale so the label is wrong or an IndexError is raised.", "quantifier": "all template ids, rebin factors", "why_tests_cant": "Requires reasoning about all factors.", "anchors": ["popkinmocks/model_grids.py:milesSSPs.get_ssp", "popkinmocks/model_grids.py:milesSSPs._rebin_par_grid"]}
{"id": "C31", "title": "Plot ticks", "statement": "After set_tick_positions all kept ticks lie strictly inside the age/metallicity range, their image positions lie in (0,1) and are ordered as the tick values are.", "quantifier": "all edge grids and requested tick lists", "why_tests_cant": "Tests sample a handful of fixed arrays with allclose; the claim ranges over every array content and grid size.", "anchors": ["popkinmocks/model_grids.py:milesSSPs.set_tick_positions"]}
{"id": "C32", "title": "Template file names are parsed and rebuilt faithfully", "statement": "For every file name of the MILES form, splitting and re-joining reproduces the original name, and the sign letter m/p determines the sign of the metallicity.", "quantifier": "all names of the stated form", "why_tests_cant": "Infinite set of strings.", "anchors": ["popkinmocks/read_miles.py:milesSSPs.split_modfiles", "popkinmocks/read_miles.py:milesSSPs.join_modfiles"]}
{"id": "C33", "title": "Age and metallicity limits", "statement": "With limits given, exactly the templates with both parameters inside the closed limits are kept, in file order, with all per-file lists staying aligned; a surviving set that is not a full grid raises ValueError.", "quantifier": "all file lists and limits", "why_tests_cant": "Tests sample a handful of fixed arrays with allclose; the claim ranges over every array content and grid size.", "anchors": ["popkinmocks/read_miles.py:milesSSPs.filter_age_metallicity_limits", "popkinmocks/read_miles.py:milesSSPs.check_age_metallicity_grid"]}
{"id": "C34", "title": "Spectra matrix column order", "statement": "Column iz*nt+it of the spectra matrix is the spectrum of the it-th smallest age at the iz-th smallest metallicity, matching the (nz,nt) reshape used later, independent of the directory listing order.", "quantifier": "all grids and listing orders", "why_tests_cant": "Directory order is arbitrary and platform dependent.", "anchors": ["popkinmocks/read_miles.py:milesSSPs.read_spectra", "popkinmocks/read_miles.py:milesSSPs.join_modfiles"]}
{"id": "C35", "title": "Wavelength truncation", "statement": "Truncation keeps exactly the wavelengths in the closed requested range with their rows, and raises ValueError exactly when the request exceeds the template range.", "quantifier": "all wavelength arrays and limits", "why_tests_cant": "Tests sample a handful of fixed arrays with allclose; the claim ranges over every array content and grid size.", "anchors": ["popkinmocks/read_miles.py:milesSSPs.truncate_wavelengths"]}
{"id": "C36", "title": "Pixel binning conserves flux", "statement": "Binning pixels should sum adjacent pixels and lose fewer than one bin of them. Refuted: when the factor divides the number of pixels everything is dropped, otherwise strided not adjacent pixels are added.", "quantifier": "all pixel counts and factors", "why_tests_cant": "Quantifies over sizes and factors.", "anchors": ["popkinmocks/read_miles.py:milesSSPs.bin_pixels"]}
{"id": "C37", "title": "Spectra cache", "statement": "With default limits and no cache file the constructor should read the spectra and create the cache. Refuted: it raises AttributeError in every such history, and the cache file is never created.", "quantifier": "all file-system histories", "why_tests_cant": "A statement about all histories of constructor calls.", "anchors": ["popkinmocks/read_miles.py:milesSSPs.read_spectra"]}
{"id": "C38", "title": "Particle histograms", "statement": "FromParticle bins particles half-open except the last bin which includes its right edge; get_p('tvxz', density=False) is the fraction of in-bounds weight in each bin and sums to one; each in-bounds particle lands in exactly one bin.", "quantifier": "all particle lists, weights and grids with positive in-bounds weight", "why_tests_cant": "Tests sample a handful of fixed arrays with allclose; the claim ranges over every array content and grid size.", "anchors": ["popkinmocks/components/particle.py:FromParticle.__init__"]}
{"id": "C39", "title": "Out-of-bounds particles", "statement": "Adding or removing particles outside the grid changes no distribution; the reported number lost equals the number of particles with at least one coordinate out of range; with no in-bounds weight every distribution is nan.", "quantifier": "all particle lists", "why_tests_cant": "Tests sample a handful of fixed arrays with allclose; the claim ranges over every array content and grid size.", "anchors": ["popkinmocks/components/particle.py:FromParticle.__init__"]}
{"id": "C40", "title": "Particle order and weight scale", "statement": "Distributions do not depend on the order of particles nor on a common factor of the weights.", "quantifier": "all permutations and positive factors", "why_tests_cant": "All permutations of all lists.", "anchors": ["popkinmocks/components/particle.py:FromParticle.__init__"]}
{"id": "C41", "title": "Rotation and centring preserve distances", "statement": "Component coordinates are the cube coordinates shifted to the centre and rotated rigidly: distances are preserved, and a component with rotation angle a has its major axis at cube angle -a.", "quantifier": "all angles, centres and grids", "why_tests_cant": "Tests sample a handful of fixed arrays with allclose; the claim ranges over every array content and grid size.", "anchors": ["popkinmocks/components/parametric.py:ParametricComponent.__init__"]}
{"id": "C42", "title": "Star formation history", "statement": "After set_p_t the mass in each age bin is the beta CDF difference, non-negative, and the masses sum to one; ValueError is raised exactly when both shape parameters are at most 1.", "quantifier": "all parameters and age grids, any CDF that is monotone from 0 to 1 on the age range", "why_tests_cant": "Tests sample a handful of fixed arrays with allclose; the claim ranges over every array content and grid size.", "anchors": ["popkinmocks/components/parametric.py:ParametricComponent.set_p_t"]}
{"id": "C43", "title": "Age interpolation stays within the given limits", "statement": "Quantities varied with age equal the young value below the start age, the old value above the end age and stay between them, monotonically, in between.", "quantifier": "all limits and age grids with start < end", "why_tests_cant": "Tests sample a handful of fixed arrays with allclose; the claim ranges over every array content and grid size.", "anchors": ["popkinmocks/components/parametric.py:ParametricComponent.linear_interpolate_t"]}
{"id": "C44", "title": "Growing disk spatial density", "statement": "p(x|t) of a GrowingDisk is positive, sums to one over the image at each age, decreases with elliptical radius, and is symmetric under reflection of the component axes; invalid limits raise AssertionError.", "quantifier": "all valid parameters and grids", "why_tests_cant": "Tests sample a handful of fixed arrays with allclose; the claim ranges over every array content and grid size.", "anchors": ["popkinmocks/components/growing_disk.py:GrowingDisk.set_p_x_t"]}
{"id": "C45", "title": "Growing disk velocity maps", "statement": "Mean velocity never exceeds the requested maximum in size, attains it on the major axis at rmax, is antisymmetric and vanishes at the centre; dispersions and depletion times lie between the inner and outer values.", "quantifier": "all valid parameters, grids and ages", "why_tests_cant": "Tests sample a handful of fixed arrays with allclose; the claim ranges over every array content and grid size.", "anchors": ["popkinmocks/components/growing_disk.py:GrowingDisk.set_mu_v", "popkinmocks/components/growing_disk.py:GrowingDisk.set_sig_v", "popkinmocks/components/growing_disk.py:GrowingDisk.set_t_dep"]}
{"id": "C46", "title": "Stream maps", "statement": "p(x) of a Stream sums to one over the image for each age and does not depend on age; mean velocity lies between the two limits, equals them beyond the angular limits, and is monotone in angle.", "quantifier": "all valid parameters and grids", "why_tests_cant": "Tests sample a handful of fixed arrays with allclose; the claim ranges over every array content and grid size.", "anchors": ["popkinmocks/components/stream.py:Stream.set_p_x_t", "popkinmocks/components/stream.py:Stream.set_mu_v"]}
{"id": "C47", "title": "Metallicity distribution of the enrichment model", "statement": "p(z|t,x) integrates to one over the metallicity bins. The bin probability should be proportional to the normal probability of the bin; refuted on non-uniform metallicity bins, where an extra factor of the bin width appears.", "quantifier": "all metallicity grids and depletion maps", "why_tests_cant": "Tests sample a handful of fixed arrays with allclose; the claim ranges over every array content and grid size.", "anchors": ["popkinmocks/components/parametric.py:ParametricComponent.evaluate_chemical_enrichment_model_base"]}
{"id": "C48", "title": "Depletion time clamping", "statement": "A requested depletion time is represented by the nearest tabulated value, so within [0.1,10] the choice is within half a grid step; refuted above 10 although values up to 13 are accepted: all of them behave as 10.", "quantifier": "all depletion times", "why_tests_cant": "Tests sample a handful of fixed arrays with allclose; the claim ranges over every array content and grid size.", "anchors": ["popkinmocks/components/parametric.py:ParametricComponent.evaluate_chemical_enrichment_model_base", "popkinmocks/components/parametric.py:ParametricComponent.get_z_interpolation_grid", "popkinmocks/components/growing_disk.py:GrowingDisk.set_t_dep"]}
{"id": "C49", "title": "Parametric marginals", "statement": "For a parametric component all 15 marginals and 50 conditionals, mass- or light-weighted, equal those of the factorised joint p(t)p(x|t)p(z|t,x), times the binned p(v|t,x) for strings with v.", "quantifier": "all parameter arrays with normalised p(x|t) and p(z|t,x), all strings and options", "why_tests_cant": "Tests sample a handful of fixed arrays with allclose; the claim ranges over every array content and grid size.", "anchors": ["popkinmocks/components/parametric.py:ParametricComponent._get_log_p_*"]}
{"id": "C50", "title": "Velocity truncation in parametric components", "statement": "Summing p(t,v) over v should give p(t). Refuted: the velocity mass outside the cube's range is lost in distributions with v and kept in those without, so the two differ by exactly the lost mass; light-weighted p(v|t,x) is renormalised while mass-weighted is not.", "quantifier": "all grids, velocity maps", "why_tests_cant": "An exact characterisation for all inputs.", "anchors": ["popkinmocks/components/parametric.py:ParametricComponent._get_log_p_v_tx", "popkinmocks/components/parametric.py:ParametricComponent._get_log_p_tv"]}
{"id": "C51", "title": "Parametric velocity moments", "statement": "Analytic velocity moments about any centre equal the moments of the Gaussian mixture over the unconditioned variables, for every order; means by the law of total expectation.", "quantifier": "all orders, centres, conditioners, parameter maps", "why_tests_cant": "All orders j.", "anchors": ["popkinmocks/components/parametric.py:ParametricComponent.__get_noncentral_moment_v__", "popkinmocks/components/base.py:Component.get_mean_v_*"]}
{"id": "C52", "title": "Velocity moment given t,x,z about an arbitrary centre", "statement": "get_noncentral_moment('v_txz', j, mu) should use the centre mu(t,x,z) supplied. Refuted: only the z-index-0 slice of mu is used, so mixtures of parametric components return wrong central moments of v given t,x,z.", "quantifier": "all centres varying with z", "why_tests_cant": "Needs all centre arrays; the tests only use centres independent of z.", "anchors": ["popkinmocks/components/parametric.py:ParametricComponent.get_noncentral_moment_v_txz", "popkinmocks/components/mixture.py:Mixture.get_central_moment"]}
{"id": "C53", "title": "Correlations of parametric components", "statement": "get_correlation should lie in [-1,1]. Refuted for parametric components when v is involved, because a binned covariance is divided by analytic variances.", "quantifier": "all parametric components", "why_tests_cant": "Existence of a violating input needs exact arithmetic.", "anchors": ["popkinmocks/components/base.py:Component.get_correlation", "popkinmocks/components/parametric.py:ParametricComponent.get_noncentral_moment_v"]}
{"id": "C54", "title": "Set-up order of parametric components", "statement": "In any history of setter calls, querying a distribution before the setters it needs raises AttributeError and never returns numbers; the last call of each setter determines the result, except that p(x|t) and kinematic maps keep the age interpolation of the set_p_t call that preceded them.", "quantifier": "all finite histories of setter and query calls", "why_tests_cant": "All call histories.", "anchors": ["popkinmocks/components/parametric.py:ParametricComponent.set_p_t", "popkinmocks/components/parametric.py:ParametricComponent.linear_interpolate_t"]}
{"id": "C55", "title": "Mixture weights are validated", "statement": "Mixture construction raises AssertionError exactly when lengths differ, some weight is not positive, or the sum is not one within tolerance.", "quantifier": "all weight lists", "why_tests_cant": "All lists.", "anchors": ["popkinmocks/components/mixture.py:Mixture.__init__"]}
{"id": "C56", "title": "Mixture marginals and conditionals", "statement": "All marginals and conditionals of a mixture, mass- or light-weighted, equal those of a plain component whose joint is the weighted sum of the members' joints; with collapse_cmps=False the first axis splits this by member and summing over it gives the collapsed result.", "quantifier": "all numbers of members, weights, densities, strings, options", "why_tests_cant": "Tests sample a handful of fixed arrays with allclose; the claim ranges over every array content and grid size.", "anchors": ["popkinmocks/components/mixture.py:Mixture.get_log_p", "popkinmocks/components/mixture.py:Mixture._get_log_marginal_distribution_light_wtd", "popkinmocks/components/mixture.py:Mixture._get_log_conditional_distribution"]}
{"id": "C57", "title": "Mixture moments", "statement": "Means and central moments of a mixture equal those of the combined joint at every conditioner bin where each member has positive mass; refuted elsewhere: if one member has no mass there the result is nan although the mixture has mass.", "quantifier": "all members, orders, conditioners", "why_tests_cant": "Tests sample a handful of fixed arrays with allclose; the claim ranges over every array content and grid size.", "anchors": ["popkinmocks/components/mixture.py:Mixture.get_mean", "popkinmocks/components/mixture.py:Mixture.get_central_moment", "popkinmocks/components/mixture.py:Mixture._get_light_reweightings"]}
{"id": "C58", "title": "Mixtures of mixtures", "statement": "Using a mixture as a member should behave like the flattened mixture. Refuted: every distribution query raises AttributeError.", "quantifier": "all nested mixtures and strings", "why_tests_cant": "All inputs fail; a theorem states it for all.", "anchors": ["popkinmocks/components/mixture.py:Mixture._get_log_marginal_distribution_mass_wtd"]}
{"id": "C59", "title": "Light-weighted mixture queries ignore malformed strings", "statement": "Malformed strings should raise. Refuted for light-weighted mixture queries: any string without 'v' returns numbers, with axes in alphabetical order whatever the order requested.", "quantifier": "all strings", "why_tests_cant": "All strings.", "anchors": ["popkinmocks/components/mixture.py:Mixture._get_log_marginal_distribution_light_wtd"]}
{"id": "C60", "title": "Datacube evaluation modes agree", "statement": "evaluate_ybar gives the same datacube for batch none, column and spaxel, for base and parametric components, and ValueError for other modes; entry [w,i,j] is the probability-weighted sum over t,z of templates convolved with the velocity distribution at pixel (i,j).", "quantifier": "all grids, densities, templates, any linear frequency interpolation", "why_tests_cant": "Tests sample a handful of fixed arrays with allclose; the claim ranges over every array content and grid size.", "anchors": ["popkinmocks/components/base.py:Component.evaluate_ybar", "popkinmocks/components/parametric.py:ParametricComponent.evaluate_ybar"]}
{"id": "C61", "title": "Datacube is linear in the density", "statement": "The datacube of a mixture is the weighted sum of member datacubes and equals the datacube of the combined joint density.", "quantifier": "all members, weights and templates", "why_tests_cant": "Tests sample a handful of fixed arrays with allclose; the claim ranges over every array content and grid size.", "anchors": ["popkinmocks/components/base.py:Component.evaluate_ybar", "popkinmocks/components/mixture.py:Mixture.evaluate_ybar"]}
{"id": "C62", "title": "Flux conservation in the datacube", "statement": "The total over wavelength of the datacube at a pixel equals the sum over t,z of pixel probability times the total of the template; no flux is created or lost by the Fourier convolution.", "quantifier": "all templates, densities, velocity maps", "why_tests_cant": "Tests sample a handful of fixed arrays with allclose; the claim ranges over every array content and grid size.", "anchors": ["popkinmocks/components/base.py:Component.evaluate_ybar", "popkinmocks/components/parametric.py:ParametricComponent.evaluate_ybar", "popkinmocks/model_grids.py:milesSSPs._calculate_fourier_transform"]}
{"id": "C63", "title": "A velocity of k pixels shifts the spectrum by k pixels", "statement": "With zero dispersion and mean velocity k*dv the datacube spectrum is the template circularly shifted by k pixels, for an even number of pixels; refuted for odd numbers of pixels, where the frequency grid is off by n/(n-1).", "quantifier": "all templates, even sizes n, integers k", "why_tests_cant": "All sizes and shifts.", "anchors": ["popkinmocks/components/parametric.py:ParametricComponent.evaluate_ybar"]}
{"id": "C64", "title": "Velocity grid validation", "statement": "The base datacube evaluation accepts only velocity grids matching the SSP sampling, ascending and with zero at the centre index; other grids should raise ValueError. Refuted: grids without a bin centred on zero (for example symmetric grids with an even number of bins, such as the default one) raise IndexError instead.", "quantifier": "all velocity grids", "why_tests_cant": "All grids.", "anchors": ["popkinmocks/components/base.py:Component.evaluate_ybar"]}
{"id": "C65", "title": "Sharing SSPs between cubes", "statement": "Building a second cube on the same SSP object should not affect the first. Refuted: it overwrites the resampled templates, so later evaluations of the first cube raise ValueError (base) or silently use the wrong velocity scale (parametric).", "quantifier": "all interleavings of cube constructions and evaluations", "why_tests_cant": "A statement about interleavings.", "anchors": ["popkinmocks/ifu_cube.py:IFUCube.__init__", "popkinmocks/model_grids.py:milesSSPs._logarithmically_resample"]}
{"id": "C66", "title": "Constant signal-to-noise", "statement": "ConstantSNR sigma satisfies ybar/sigma = snr at every positive pixel, and sampling a datacube with a negative pixel raises ValueError.", "quantifier": "all datacubes and snr > 0", "why_tests_cant": "Tests sample a handful of fixed arrays with allclose; the claim ranges over every array content and grid size.", "anchors": ["popkinmocks/noise.py:ConstantSNR.get_sigma", "popkinmocks/noise.py:Diagonal.sample"]}
{"id": "C67", "title": "Shot noise", "statement": "ShotNoise gives snr exactly at the brightest pixel, at most snr elsewhere, and sigma proportional to the square root of the flux.", "quantifier": "all non-negative datacubes with positive maximum", "why_tests_cant": "Tests sample a handful of fixed arrays with allclose; the claim ranges over every array content and grid size.", "anchors": ["popkinmocks/noise.py:ShotNoise.get_sigma"]}
{"id": "C68", "title": "Noisy data is signal plus noise", "statement": "get_noisy_data returns exactly ybar plus the drawn noise entry by entry and leaves the component's ybar unchanged; AttributeError if ybar was not evaluated.", "quantifier": "all datacubes and all random draws", "why_tests_cant": "All random outcomes.", "anchors": ["popkinmocks/noise.py:Noise.get_noisy_data"]}
{"id": "C69", "title": "Saving components", "statement": "save_numpy should work for every component. Refuted: for every component other than a mixture it raises TypeError (unsupported keyword), and the default directory None raises TypeError.", "quantifier": "all components and arguments", "why_tests_cant": "All inputs.", "anchors": ["popkinmocks/components/base.py:Component.save_numpy", "popkinmocks/components/base.py:Component.dill_dump"]}
{"id": "C70", "title": "Thinning the template grid", "statement": "thin_model_grid with factors (ka,kz) keeps exactly the files whose age is the (i*ka)-th smallest and whose metallicity is the (j*kz)-th smallest distinct value for some i, j, in listing order with all per-file lists aligned.", "quantifier": "all file lists of MILES form and all factors >= 1", "why_tests_cant": "The package only ever calls it with factors 1; other factors and grid sizes are never exercised.", "anchors": ["popkinmocks/read_miles.py:102-112"]}
{"id": "C71", "title": "From template files to the cube's SSP arrays", "statement": "For every directory of MILES-form files whose members within the given limits form a full grid, the constructor followed by the calls IFUCube makes yields bin arrays on increasing age and metallicity grids; without rebinning the light weight at (t,z) is the sum over exactly the requested wavelengths of the spectrum in the file of that age and metallicity, and that file's values lie strictly inside the bin.", "quantifier": "all directories, listing orders, limits, wavelength requests, rebin factors >= 1, velocity spacings > 0", "why_tests_cant": "The package data directory is fixed; other directories, orders and limits are never exercised together.", "anchors": ["popkinmocks/read_miles.py", "popkinmocks/model_grids.py:98-293", "popkinmocks/ifu_cube.py:20-50"]}
{"id": "C72", "title": "Where saved files go", "statement": "dill_dump and save_numpy create the directory direc and should write the file inside it. Refuted: the name is direc + fname without a separator, so for every direc not ending in '/' and every non-empty fname not starting with '/' the directory is created but the file is written outside it; with a separator the file is inside.", "quantifier": "all components, file names and directories", "why_tests_cant": "The claim is over all names; the package's tests do not save files.", "anchors": ["popkinmocks/components/base.py:1176-1225"]}
{"id": "C73", "title": "Odd numbers of velocity bins in the base datacube", "statement": "In the base datacube stars in velocity bin v should appear displaced by v - v0 pixels, v0 the bin at zero. For even numbers of bins and pixels they are (with an interpolation exact for that harmonic). Refuted for odd numbers of bins with an even number of pixels: the displacement is (v - v0)(nv - 1)/nv, because the interpolation maps the last knot, at frequency pi (nv - 1)/nv, to frequency pi.", "quantifier": "all odd numbers of velocity bins, even numbers of pixels, densities and templates", "why_tests_cant": "The error is a fraction 1/nv of a velocity, below the tolerance of comparisons on single grids.", "anchors": ["popkinmocks/components/base.py:Component.evaluate_ybar"]}
{"id": "C74", "title": "Mean metallicity of the enrichment model", "statement": "The table built at construction has, for every depletion time and age, a mean metallicity in (0, z_max], not increasing with age, within one table step of the exact solution of the enrichment equation, and equal to z_max for ages too young for the solution to stay below z_max.", "quantifier": "all cubes, depletion times of the table and ages", "why_tests_cant": "The table is only ever plotted; the bound is over all ages and depletion times.", "anchors": ["popkinmocks/components/parametric.py:ParametricComponent.get_z_interpolation_grid"]}
{"id": "C75", "title": "Editing what a query returned", "statement": "A caller who edits an array returned by a query should not change the component. True of get_p and get_log_p. Refuted for get_mean(\"v_tx\") of a parametric component, which returns the stored map of mean velocities itself: whatever is written into it becomes the component's mean velocity and every later query answers for the edited map.", "quantifier": "all heaps, components and edits", "why_tests_cant": "Tests do not edit the arrays they get back.", "anchors": ["popkinmocks/components/base.py:Component.get_mean_v_tx"]}
{"id": "C76", "title": "Datacube of a set-up parametric component", "statement": "evaluate_ybar of a growing disk or stream whose setters have all been called with valid arguments succeeds in every batch mode and gives, in each pixel, the templates convolved with the velocity distributions of the component's own mean and dispersion maps, weighted by its own p(t,x,z). Before that it fails: with AttributeError unless the setters of age, position and metallicity have been accepted, with ValueError for an unknown batch mode, with AttributeError unless mean velocity and dispersion have been set. The datacube of a mixture is the weighted sum, and a pixel's flux the weighted sum of template fluxes. When template fluxes depend on age only the total flux is their expectation over ages.", "quantifier": "all cubes with templates, valid setter arguments, batch modes; all histories of setter calls", "why_tests_cant": "Tests evaluate two fixed components in one order of calls.", "anchors": ["popkinmocks/components/parametric.py:ParametricComponent.evaluate_ybar", "popkinmocks/components/mixture.py:Mixture.evaluate_ybar"]}
{"id": "C77", "title": "Flux of a pixel and the light-weighted p(x)", "statement": "The flux of a pixel of the datacube is the light-weighted probability of that pixel times the total flux, for base and parametric components, provided every template's flux is the same multiple of its light weight. Refuted otherwise: two templates with different ratios give a component for which it fails; and the templates used in the datacube are resampled to log wavelength while light weights are sums over the original wavelengths, so the ratios do differ for some templates whatever the velocity step and the interpolation.", "quantifier": "all components, grids, templates, splines through their knots", "why_tests_cant": "No test compares a datacube with light-weighted distributions.", "anchors": ["popkinmocks/components/base.py:Component.evaluate_ybar", "popkinmocks/components/parametric.py:ParametricComponent.evaluate_ybar", "popkinmocks/model_grids.py:milesSSPs.get_light_weights", "popkinmocks/model_grids.py:milesSSPs._logarithmically_resample"]}
{"id": "C78", "title": "Which parameters ybar belongs to", "statement": "After any history of setter and evaluate_ybar calls the attribute ybar is the datacube of the parameters in force at the last successful evaluation, and does not exist if there was none; evaluations do not change the parameters. Refuted: it need not be the datacube of the current parameters, since no setter discards it; setting another star formation history leaves the old datacube whenever the expected template flux changes.", "quantifier": "all histories of calls on disks and streams", "why_tests_cant": "Tests call each setter once and evaluate at the end.", "anchors": ["popkinmocks/components/parametric.py:ParametricComponent.evaluate_ybar", "popkinmocks/components/parametric.py:ParametricComponent.set_p_t"]}
{"id": "C79", "title": "L-moments of histograms", "statement": "For the distribution whose bins have the component's probabilities, spread evenly over each bin, L-moments are integrals of the quantile function times a shifted Legendre polynomial. The L-mean returned is that integral exactly. The L-dispersion returned exceeds it by a third of the sum of bin width times squared bin probability, which is always positive; the third L-moment is off by a sum that contains bin centres times cubed probabilities. Where the conditioner is empty all three are nan.", "quantifier": "all components, variables t, v and z, conditioners, mass and light weighting", "why_tests_cant": "Tests compare with samples to a tolerance; an error of this size goes unseen.", "anchors": ["popkinmocks/components/base.py:Component.get_l_moment", "popkinmocks/components/base.py:Component.get_l_mean", "popkinmocks/components/base.py:Component.get_l_dispersion"]}
{"id": "C80", "title": "L-moments of the normal distribution and excess L-moments", "statement": "get_l_moment_normal raises ValueError at order 0, is exactly 0 at odd orders, finite at all others, positive at order 2, and at orders 1 to 4 is the midpoint rule with 99999 cells for the integral of normal quantile times shifted Legendre polynomial, with values within 1e-8 replaced by 0; the normalised one is 1 at order 2. get_excess_l_moment is the normalised L-moment less that of the normal distribution, hence equal to it at odd orders and 0 at order 2, and nan where the conditioner is empty.", "quantifier": "all orders, all components, variables t, v and z, conditioners; the quantile function of the normal distribution is characterised by integrals of its density and shown to exist", "why_tests_cant": "No test calls these methods.", "anchors": ["popkinmocks/components/base.py:Component.get_l_moment_normal", "popkinmocks/components/base.py:Component.get_normalised_l_moment_normal", "popkinmocks/components/base.py:Component.get_excess_l_moment", "popkinmocks/components/base.py:Component.get_excess_l_kurtosis"]}
{"id": "C81", "title": "Ticks and line plots", "statement": "imshow labels its axes with the view variables and gives age and metallicity axes the SSP object's ticks; a tick labelled with a value stands at the pixels of that value's bin. plot with physical spacing draws at bin centres, one line per column, and raises ValueError when the first axis has another length than the variable. Refuted for discrete spacing: point i of n is drawn at i/(n-1), inside its bin but up to half a bin from where the ticks put its value, and only a middle point is right; arrays of any length are accepted; two-dimensional arrays raise. Unknown variables raise ValueError, other spacings UnboundLocalError. plot_spectrum draws at wavelengths or exponentials of log wavelengths according to the length and raises UnboundLocalError for other lengths; refuted: when there are as many wavelengths as log wavelengths, which some velocity step brings about for any wavelengths, spectra sampled in log wavelength are drawn at the original wavelengths.", "quantifier": "all cubes, variables, arrays and tick requests", "why_tests_cant": "Plots are not tested.", "anchors": ["popkinmocks/ifu_cube.py:IFUCube._get_ticks", "popkinmocks/ifu_cube.py:IFUCube.imshow", "popkinmocks/ifu_cube.py:IFUCube.plot", "popkinmocks/ifu_cube.py:IFUCube.plot_spectrum"]}
{"id": "C82", "title": "Statistics of parametric components other than velocity moments, and L-moments of their velocities", "statement": "For ages, positions and metallicities of a parametric component, get_mean, moments about any centre, central moments, variance, dispersion, skewness, kurtosis, excess kurtosis, covariance and L-moments are those of the distribution described by get_p, with the same bounds and nan rules as for plain components. L-moments of velocities take the probability between the lowest velocity edge and each edge as cumulative distribution, so get_l_mean of the velocity counts velocities outside the cube as 0 and stays within its range; refuted: get_l_mean is not get_mean for velocities, which is the exact mean of the mixture of normal distributions.", "quantifier": "all parametric components, variables, conditioners, weightings and orders", "why_tests_cant": "Tests compare a few moments of one growing disk by summation; L-moments of parametric components are not tested.", "anchors": ["popkinmocks/components/base.py:Component.get_mean", "popkinmocks/components/base.py:Component.get_central_moment", "popkinmocks/components/base.py:Component.get_covariance", "popkinmocks/components/base.py:Component.get_l_moment"]}
{"id": "C83", "title": "Statistics that mixtures inherit", "statement": "get_variance, get_dispersion, get_skewness, get_kurtosis, get_excess_kurtosis, get_covariance and get_correlation of a mixture are those of the distribution of the mixture, with the same bounds and nan rules as for plain components, wherever every member has mass; with parametric members this holds for ages, positions and metallicities. Where a member has no mass they are nan. L-moments are those of the mixture wherever the mixture has mass, so get_l_mean is the mean there. Refuted: the dispersion is nan in a bin where the mixture has mass but one of its members has none, while get_l_mean is right there.", "quantifier": "all mixtures of base and parametric components, variables, conditioners and weightings", "why_tests_cant": "Tests compare means and variances of one mixture with sums; they do not test covariance, correlation, shape or L-moments of mixtures nor bins in which a member is empty.", "anchors": ["popkinmocks/components/mixture.py:Mixture.get_central_moment", "popkinmocks/components/mixture.py:Mixture.get_mean", "popkinmocks/components/base.py:Component.get_covariance", "popkinmocks/components/base.py:Component.get_correlation", "popkinmocks/components/base.py:Component.get_l_moment"]}
{"id": "C84", "title": "Shape of velocity distributions of parametric components and mixtures with them", "statement": "get_dispersion, get_skewness, get_kurtosis and get_excess_kurtosis of the velocity of a parametric component are those of the mixture of normal distributions over all velocities, whatever the conditioners; the dispersion is positive and the kurtosis exceeds one plus the squared skewness. Given t and x the dispersion is that of the map, the skewness 0, the kurtosis 3 and the excess 0, exactly. When all means agree the skewness is 0 and the kurtosis at least 3, with equality just when the dispersions agree. For mixtures with parametric members, not given all of t, x and z, they are those of the members' moments about the mixture's mean weighted by the members' shares, nan without spread, which cannot happen with a parametric member.", "quantifier": "all parametric components and mixtures with them, conditioners and weightings", "why_tests_cant": "Tests check a few velocity moments of one disk against binned sums within tolerances; they cannot show exactness or the inequalities.", "anchors": ["popkinmocks/components/parametric.py:ParametricComponent.get_central_moment_v_tx", "popkinmocks/components/base.py:Component.get_normalised_central_moment", "popkinmocks/components/base.py:Component.get_excess_central_moment", "popkinmocks/components/mixture.py:Mixture.get_central_moment"]}
{"id": "C85", "title": "Combining particle sets", "statement": "One FromParticle component of all particles and the mixture, by the share of the mass on the grid, of components of the particles in any number of subsets give the same distributions (marginal, conditional, density, mass- or light-weighted) and the same datacube, and the numbers of lost and of all particles add up; means and central moments agree wherever every subset has mass. Refuted: where one subset has no mass and another has, means and central moments of the mixture are nan while those of the single component are finite.", "quantifier": "all cubes, particle sets with non-negative weights and some mass on the grid each, distributions, weightings, moments and resampling modes", "why_tests_cant": "Tests build one particle component; none compares subsets with the whole, and a comparison on one sample cannot cover empty bins.", "anchors": ["popkinmocks/components/particle.py:FromParticle.__init__", "popkinmocks/components/mixture.py:Mixture.get_p", "popkinmocks/components/mixture.py:Mixture.get_mean", "popkinmocks/components/mixture.py:Mixture.evaluate_ybar"]}
{"id": "C86", "title": "Binned particles and the particles themselves", "statement": "Every marginal of a FromParticle component is the fraction of the weight on the grid of the particles in the cell, and every conditional the fraction of the weight in the cell of the conditioner, nan if it holds none; the weights are masses, or masses times the light of the particle's age and metallicity bin when light-weighted. Light-weighted distributions, means and central moments are the mass-weighted ones of the component made with luminosities for masses. Means and dispersions differ from those of the unbinned values of the particles in the cell by at most half the widest bin.", "quantifier": "all cubes, particles with non-negative weights and some weight on the grid, distributions, coordinates and conditioners", "why_tests_cant": "Tests compare the joint histogram of one random sample; they do not bound binning errors nor check light weighting of particles.", "anchors": ["popkinmocks/components/particle.py:FromParticle.__init__", "popkinmocks/components/base.py:Component.get_p", "popkinmocks/components/base.py:Component.get_mean", "popkinmocks/components/base.py:Component.get_dispersion"]}
{"id": "C87", "title": "Order and repetition of the members of a mixture", "statement": "A mixture does not depend on how it is written: listing its members in another order, or a member several times with parts of its weight, leaves every collapsed distribution, the means and central moments of every variable (including where they are nan) and the datacube as they were; a mixture of one base component with weight 1 has the distributions, means, central moments and datacube of that component.", "quantifier": "all cubes, all mixtures of base and parametric components with positive weights, all distributions, weightings, variables, conditioners and moment orders", "why_tests_cant": "A test fixes one list of members; that the result is a function of the weighted set of members is a statement about all lists.", "anchors": ["popkinmocks/components/mixture.py:Mixture.get_p", "popkinmocks/components/mixture.py:Mixture.get_mean", "popkinmocks/components/mixture.py:Mixture.get_central_moment", "popkinmocks/components/mixture.py:Mixture.evaluate_ybar"]}
{"id": "C88", "title": "Templates in other units of flux", "statement": "Templates whose fluxes are all multiplied by a positive constant k describe the same galaxy: every distribution, mass or light weighted, of base components, parametric components and mixtures, and every mean and central moment of base components and mixtures, is unchanged, while the resampled templates, the datacube and, for the same random draws, the noise level and the noisy data of both noise models are multiplied by k.", "quantifier": "all positive k, all cubes, all base components, parametric components and mixtures, all distributions, weightings, conditioners and moment orders, all batch settings, all signal-to-noise ratios and draws", "why_tests_cant": "A test runs one template library in its own units; independence of the unit is a statement about all scalings of all fluxes.", "anchors": ["popkinmocks/model_grids.py:milesSSPs.get_light_weights", "popkinmocks/model_grids.py:milesSSPs._logarithmically_resample", "popkinmocks/components/base.py:Component.get_p", "popkinmocks/components/base.py:Component.evaluate_ybar", "popkinmocks/components/parametric.py:ParametricComponent.evaluate_ybar", "popkinmocks/components/mixture.py:Mixture.get_p", "popkinmocks/components/mixture.py:Mixture.evaluate_ybar", "popkinmocks/noise.py:ConstantSNR.get_sigma", "popkinmocks/noise.py:ShotNoise.get_sigma"]}
{"id": "C89", "title": "Padded transforms of the templates", "statement": "Asking for padding (pad=\"ppxf\") transforms the templates on the least power of two that is not below their number of pixels and changes neither the templates nor their light weights; the default recomputes the transforms a cube already made and any other string raises ValueError. With the padded transforms the datacube of a component is that of the templates followed by zeros, so that velocities up to the number of added pixels move no light round to the other end of the spectrum, in every batch mode.", "quantifier": "all numbers of pixels, all templates, all evaluable base and parametric components, all velocities of whole pixels up to the padding", "why_tests_cant": "A test pads one template library of one length; the length, the absence of wrapped light and the agreement of the batch modes are statements about all lengths.", "anchors": ["popkinmocks/model_grids.py:milesSSPs._calculate_fourier_transform", "popkinmocks/components/base.py:Component.evaluate_ybar", "popkinmocks/components/parametric.py:ParametricComponent.evaluate_ybar"]}
{"id": "C90", "title": "Central velocity moment methods of parametric components", "statement": "The methods get_central_moment_v, _v_t, _v_x, _v_z, _v_tx, _v_tz, _v_xz and _v_txz of a parametric component, called as documented with an order and a weighting, return the central moments of that order of the velocity distribution they name (for p(v|t,x) and p(v|t,x,z) those of the normal distribution of that age and position), and agree with get_central_moment; an extra argument mu, where a method takes one, does not change the result.", "quantifier": "all parametric components, the eight methods, all orders, both weightings, all values of mu", "why_tests_cant": "The test suite compares get_central_moment for a few orders and never calls these methods by name; that the unused argument is irrelevant is a statement about all its values.", "anchors": ["popkinmocks/components/parametric.py:ParametricComponent.get_central_moment_v_tx", "popkinmocks/components/parametric.py:ParametricComponent.get_central_moment_v_x", "popkinmocks/components/parametric.py:ParametricComponent.get_central_moment_v_t", "popkinmocks/components/parametric.py:ParametricComponent.get_central_moment_v", "popkinmocks/components/parametric.py:ParametricComponent.get_central_moment_v_txz", "popkinmocks/components/parametric.py:ParametricComponent.get_central_moment_v_tz", "popkinmocks/components/parametric.py:ParametricComponent.get_central_moment_v_xz", "popkinmocks/components/parametric.py:ParametricComponent.get_central_moment_v_z"]}
{"id": "C91", "title": "Coordinates in other units and from other origins", "statement": "Writing ages, velocities, positions and metallicities in other units and from other origins describes the same galaxy: probabilities are unchanged and densities are divided by the unit of volume; means are rescaled and shifted like the coordinate; central moments of order j, dispersions and L-dispersions are multiplied by the j-th power, or the first power, of the unit, covariances by both units; skewness, kurtosis and correlation are unchanged. For base components, parametric components and mixtures. The datacube does not depend on the units of age, position and metallicity.", "quantifier": "all positive units and all origins of the five coordinates, all grids, base components, parametric components and mixtures, all distributions, weightings, conditioners and moment orders, all batch settings", "why_tests_cant": "A test fixes one set of axes; equivariance is a statement about all pairs of components related by a change of units.", "anchors": ["popkinmocks/components/base.py:Component.get_p", "popkinmocks/components/base.py:Component.get_mean", "popkinmocks/components/base.py:Component.get_central_moment", "popkinmocks/components/base.py:Component.get_covariance", "popkinmocks/components/base.py:Component.get_correlation", "popkinmocks/components/base.py:Component.get_l_mean", "popkinmocks/components/base.py:Component.evaluate_ybar", "popkinmocks/components/parametric.py:ParametricComponent.get_p", "popkinmocks/components/parametric.py:ParametricComponent.evaluate_ybar", "popkinmocks/components/mixture.py:Mixture.get_p", "popkinmocks/components/mixture.py:Mixture.get_central_moment"]}
{"id": "C92", "title": "L-skewness, L-kurtosis and excess L-kurtosis", "statement": "get_l_skewness, get_l_kurtosis and get_excess_l_kurtosis of base components, parametric components and mixtures are the third and fourth trapezoid L-moments over the trapezoid L-dispersion, less the normal L-kurtosis for the excess; each trapezoid L-moment is that of the piecewise uniform distribution of the bins plus an error given in closed form by bin probabilities, widths, centres and cumulative probabilities. The L-dispersion is positive, so the ratios are finite wherever there is probability and nan elsewhere. They do not depend on the unit of the coordinate. They do depend on the origin, by the sums of p^3 and p^3(5F+5F'-5) over the L-dispersion, so they exceed any bound although L-ratios are below 1; and where all the probability is in one bin the L-kurtosis is 1 for 0.", "quantifier": "all components, grids, distributions, weightings, conditioners and the variables t, v and z (t and z for parametric components and mixtures containing them), all positive units and all origins", "why_tests_cant": "A test would compare with another implementation on one grid within a tolerance; the error of the trapezoid rule and its dependence on the origin are statements about all histograms.", "anchors": ["popkinmocks/components/base.py:Component.get_l_skewness", "popkinmocks/components/base.py:Component.get_l_kurtosis", "popkinmocks/components/base.py:Component.get_excess_l_kurtosis", "popkinmocks/components/base.py:Component.get_l_moment", "popkinmocks/components/base.py:Component.get_normalised_l_moment", "popkinmocks/components/base.py:Component.get_excess_l_moment"]}
{"id": "C93", "title": "Mean metallicity by age and depletion time", "statement": "Every way of setting the depletion time (a map of it, a disk's radial law, a stream's single value, evaluate_chemical_enrichment_model) yields, at each pixel and age, the metallicity density of one mean, and the mean is a function of the requested depletion time and the age only. The mean does not increase with age or with depletion time, and strictly decreases over depletion times more than one table step apart unless it is capped at z_max. Within [0.1,10] it is within z_max/999 + z (10^(2/999)-1)/2 of the solution z of the enrichment relation at the requested depletion time, or that close to z_max where the solution is above it; outside it is that of the nearer limit. In a disk the mean is constant on ellipses and monotone in elliptical radius, from that of the inner to that of the outer depletion time.", "quantifier": "all cubes, ages, depletion times and maps of them, and all valid disk arguments", "why_tests_cant": "The tests evaluate one component; monotonicity and the error of the two tables are statements about all pairs of depletion times and ages.", "anchors": ["popkinmocks/components/parametric.py:ParametricComponent.get_z_interpolation_grid", "popkinmocks/components/parametric.py:ParametricComponent.evaluate_chemical_enrichment_model_base", "popkinmocks/components/parametric.py:ParametricComponent.evaluate_chemical_enrichment_model", "popkinmocks/components/parametric.py:ParametricComponent.set_p_z_tx", "popkinmocks/components/growing_disk.py:GrowingDisk.set_t_dep", "popkinmocks/components/stream.py:Stream.set_t_dep"]}
{"id": "C94", "title": "Mixtures share the caller's list and nothing else", "statement": "With arrays and lists as mutable objects: after Mixture(cube, component_list, weights), any sequence of get_p and get_log_p calls, with the caller overwriting returned arrays and its own array of weights and replacing entries of its component_list in between, changes no array of the cube or of any component. Every answer is that of the mixture of the components which are then in the caller's list, with the weights as passed to the constructor. Results, and the datacube of evaluate_ybar, are new arrays. A base component, in contrast, keeps the caller's array of log densities.", "quantifier": "all heaps holding a cube and base or parametric components, all lists and accepted weights, all histories of queries and edits", "why_tests_cant": "The tests query freshly built mixtures and never edit what they pass or get; aliasing shows only over sequences of calls.", "anchors": ["popkinmocks/components/mixture.py:Mixture.__init__", "popkinmocks/components/mixture.py:Mixture.evaluate_ybar", "popkinmocks/components/mixture.py:Mixture.get_p", "popkinmocks/components/mixture.py:Mixture.get_log_p", "popkinmocks/components/mixture.py:Mixture._get_log_marginal_distribution_mass_wtd", "popkinmocks/components/mixture.py:Mixture._get_log_marginal_distribution_light_wtd", "popkinmocks/components/mixture.py:Mixture._get_log_conditional_distribution", "popkinmocks/components/base.py:Component.__init__"]}
{"id": "C95", "title": "Moments never change stored arrays, and share memory in exactly the listed cases", "statement": "With arrays as mutable objects: any sequence of calls of get_p and of the moments (mean, noncentral, central, dispersion, normalised and excess moments, covariance, correlation, L-moments) of a base component, a parametric component or a mixture, with the caller overwriting returned arrays in between, changes no array of the cube or of a component, and every call answers as the first one would. Results are new arrays, except that a parametric component's get_mean of v_tx and v_txz return views of mu_v, which show whatever mu_v holds later. get_variable_values of t, z, x1, x2 and get_variable_edges of t, v, z return the cube's own arrays; overwriting the velocity edges makes all later calls answer for the changed edges.", "quantifier": "all heaps holding a cube, base and parametric components and mixtures of them; all moment calls with all strings and orders; all histories of calls and edits", "why_tests_cant": "The tests call each moment once on a fresh component and never edit a returned array; aliasing shows only over sequences of calls.", "anchors": ["popkinmocks/ifu_cube.py:IFUCube.get_variable_values", "popkinmocks/ifu_cube.py:IFUCube.get_variable_edges", "popkinmocks/components/base.py:Component.get_mean", "popkinmocks/components/base.py:Component.get_noncentral_moment", "popkinmocks/components/base.py:Component.get_central_moment", "popkinmocks/components/base.py:Component.get_covariance", "popkinmocks/components/base.py:Component.get_correlation", "popkinmocks/components/base.py:Component.get_l_moment", "popkinmocks/components/parametric.py:ParametricComponent.get_mean_v_tx", "popkinmocks/components/parametric.py:ParametricComponent.get_mean_v_txz", "popkinmocks/components/mixture.py:Mixture.get_mean", "popkinmocks/components/mixture.py:Mixture.get_central_moment"]}
{"id": "C96", "title": "Laws of total variance and covariance", "statement": "Among the arrays a component returns: averaging the means of a variable given B and C with the returned probabilities of B given C gives the returned mean given C; averaging the variances given B and C, plus the squared deviations of those means from the mean given C, gives the returned variance given C; and likewise for covariances with products of deviations. The covariance of two variables is the average, over the bins of the second, of its deviation times that of the returned mean of the first. For a mixture this holds where every member has mass, for a parametric component for ages, positions and metallicities.", "quantifier": "all components of the three kinds, grids and weightings, all disjoint sets B and C of variables, all coordinates and all bins where C has mass", "why_tests_cant": "The tests compare single moments with a numerical reference for one cube; these are identities between four to seven results of different methods.", "anchors": ["popkinmocks/components/base.py:Component.get_mean", "popkinmocks/components/base.py:Component.get_central_moment", "popkinmocks/components/base.py:Component.get_variance", "popkinmocks/components/base.py:Component.get_covariance", "popkinmocks/components/base.py:Component.get_p", "popkinmocks/components/mixture.py:Mixture.get_mean", "popkinmocks/components/mixture.py:Mixture.get_central_moment"]}
{"id": "C97", "title": "Mixtures whose list of components changes", "statement": "A mixture keeps the caller's list of components, so a later change of that list changes the mixture. A change that keeps the length gives the mixture of the new members. Of a longer list, distributions and datacube use as many members as there are weights. Of a shorter list, every missing component adds one to each bin of a mass-weighted marginal (probability or density, also to numerator and denominator of conditionals), while the datacube leaves it out. Means and central moments raise when both numbers are at least two, and with one weight or one component broadcast: weight times the sum of all means, or sum of the weights times the mean. An emptied list raises UnboundLocalError or IndexError.", "quantifier": "all grids, weights, lists of components before and after the change, all sets of variables; for shortened lists, all normalised or unnormalised base components and the mass weighting", "why_tests_cant": "No test changes the list after building the mixture; the values returned from a shortened list have the right shape and no warning.", "anchors": ["popkinmocks/components/mixture.py:Mixture.__init__", "popkinmocks/components/mixture.py:Mixture._get_log_marginal_distribution_mass_wtd", "popkinmocks/components/mixture.py:Mixture._get_log_conditional_distribution", "popkinmocks/components/mixture.py:Mixture.get_log_p", "popkinmocks/components/mixture.py:Mixture.get_p", "popkinmocks/components/mixture.py:Mixture.get_mean", "popkinmocks/components/mixture.py:Mixture.get_central_moment", "popkinmocks/components/mixture.py:Mixture.evaluate_ybar"]}
{"id": "C98", "title": "Light weighting given what determines the light", "statement": "Where the conditioning variables determine the light of the template (age and metallicity always do; any set when all templates are equally bright), the light-weighted result equals the mass-weighted one at every bin with light: every conditional distribution, mean, moment, L-moment, covariance and correlation of a base component, and every distribution, mean, central moment, variance, L-moment and covariance of a mixture, also member by member. At bins without light, light-weighted conditionals are nan. Light-weighted means and distributions given other variables are the mass-weighted ones given the determining variables, averaged over the light-weighted distribution of those. For parametric components the same holds of distributions and statistics without velocities and of mean velocities and their central moments, but the light-weighted p(v|t,z) is the mass-weighted one times all light over the light within the cube's velocity range, which is more than one.", "quantifier": "all grids, densities, parametric models and mixtures with light, all sets of conditioning variables that determine the light, all coordinates and orders", "why_tests_cant": "Tests compare light-weighted and mass-weighted results on one cube for a few names; the factor of light within the velocity range is close to one there.", "anchors": ["popkinmocks/components/base.py:Component.get_log_p", "popkinmocks/components/base.py:Component.get_p", "popkinmocks/components/base.py:Component.get_mean", "popkinmocks/components/base.py:Component.get_central_moment", "popkinmocks/components/base.py:Component.get_covariance", "popkinmocks/components/base.py:Component.get_correlation", "popkinmocks/components/parametric.py:ParametricComponent._get_log_p_tv", "popkinmocks/components/parametric.py:ParametricComponent._get_log_p_tvz", "popkinmocks/components/parametric.py:ParametricComponent._get_log_p_tz", "popkinmocks/components/mixture.py:Mixture.get_log_p", "popkinmocks/components/mixture.py:Mixture.get_mean"]}
{"id": "C99", "title": "Independent variables", "statement": "Variables A are independent of B given C when p(A,B,C)p(C) = p(A,C)p(B,C) in every bin. A density that is a product of a function of A and C and a function of everything but A makes A independent of any B given C; light weighting preserves independence when B and C determine the light. Where A is independent of B given C, get_p(A|C) equals get_p(A|B,C) at every bin with mass, and conversely if the two returned arrays agree then A is independent of B; every statistic of a coordinate in A is the same given C as given B and C, and so are covariances of two coordinates. Independent coordinates have covariance 0 and correlation 0 (nan when a variance is zero). If also B and C determine the light, light-weighted and mass-weighted results for A given C are the same. The same holds for mixtures whose density has the independence, for which it is not enough that every member has it. Velocities of a parametric component given age and position do not depend on metallicity.", "quantifier": "all grids, non-negative densities and mixtures, all disjoint sets A, B, C of variables, both weightings", "why_tests_cant": "Tests never build products and compare conditionals on more variables; agreement on one cube at a few bins does not show it for all densities.", "anchors": ["popkinmocks/components/base.py:Component.get_log_p", "popkinmocks/components/base.py:Component.get_p", "popkinmocks/components/base.py:Component.get_mean", "popkinmocks/components/base.py:Component.get_central_moment", "popkinmocks/components/base.py:Component.get_covariance", "popkinmocks/components/base.py:Component.get_correlation", "popkinmocks/components/parametric.py:ParametricComponent._get_log_p_v_tx", "popkinmocks/components/mixture.py:Mixture.get_log_p", "popkinmocks/components/mixture.py:Mixture.get_mean"]}
{"id": "C100", "title": "Particle data given as arrays", "statement": "FromParticle called with arrays of particle data pairs entry i of each array as particle i: with five arrays of one axis and one length, and weights of that length, the component has the density of these weighted particles; without weights every particle has weight one. The call succeeds exactly when the five arrays have one axis and the same length and the weights are absent, fit that length, or there are no particles (then the weights are not looked at). Otherwise it raises TypeError when the ages are a single number and ValueError in every other case; in particular a single value for one coordinate is not spread over several particles, although the bounds mask accepts it.", "quantifier": "all arrays of all shapes, all weights and grids", "why_tests_cant": "Tests pass matching arrays of one length only; the claim covers every combination of shapes, including those numpy would broadcast.", "anchors": ["popkinmocks/components/particle.py:FromParticle.__init__"]}
{"id": "C101", "title": "Coarser grids", "statement": "Take a grid whose bins are runs of consecutive bins of a finer grid with the same outer edges. If the bin probabilities of a component on the coarse grid are sums of those of a component on the fine grid, then every marginal get_p on the coarse grid is the sum of the fine one over the merged bins and every conditional is the quotient of two such sums (nan where nothing is); light-weighted results too if merged bins share their template light. Exactly one coarse density has these probabilities. The same particles on the two grids are such a pair: a coarse bin holds the particles of its fine bins, the same particles are lost, and coarse probabilities are sums of fine ones.", "quantifier": "all pairs of grids, all non-negative densities, all sets of variables, all particle lists with non-negative weights", "why_tests_cant": "Tests use one fixed grid; edge rules (half-open bins, closed last bin) only show when particles sit on edges that are inner edges of one grid and not of the other.", "anchors": ["popkinmocks/components/particle.py:FromParticle.__init__", "popkinmocks/components/base.py:Component.get_p", "popkinmocks/components/base.py:Component.get_log_p"]}
{"id": "C102", "title": "Datacubes on coarser pixels", "statement": "Take a grid whose pixels, ages and metallicities are runs of consecutive ones of a finer grid, with the same velocity bins. If the bin probabilities of a component on the coarse grid are sums of those of a component on the fine grid and merged ages and metallicities share their template spectra, then each spaxel of the coarse datacube is the sum of the spaxels of the fine pixels it covers, for every pair of batch modes. The same particles on the two grids are such a pair.", "quantifier": "all pairs of grids with the same velocity bins, all non-negative densities, all spectra, all interpolation weights, all particle lists with non-negative weights", "why_tests_cant": "Tests evaluate one datacube on one grid; no test compares datacubes of two grids.", "anchors": ["popkinmocks/components/base.py:Component.evaluate_ybar", "popkinmocks/components/particle.py:FromParticle.__init__"]}
{"id": "C103", "title": "Mirror images", "statement": "On a grid whose velocity bins or pixels lie symmetrically about a point, let one component be the mirror image of another in any choice of velocity and the two positions. Every marginal and conditional distribution, mean, central moment and covariance of the image is that of the original at the mirrored bins, with the sign changes of the mirrored coordinates; its datacube is the datacube with mirrored pixels, broadened by reversed velocity distributions if velocities are mirrored. So a component which is its own image has its means in the middle, and odd central moments and mixed covariances zero. A growing disk in the middle of the image is its own image under half a turn with reversed velocities, and under reflections when its axes are along those of the image. Mirrored particles give the image, provided none lies on an edge between bins.", "quantifier": "all symmetric grids, all seven choices of coordinates, all non-negative densities, all parametric models and growing disks, all lists of particles with non-negative weights", "why_tests_cant": "Tests compare numbers for one component; none compares a component with its mirror image.", "anchors": ["popkinmocks/components/base.py:Component.get_p", "popkinmocks/components/base.py:Component.get_mean", "popkinmocks/components/base.py:Component.evaluate_ybar", "popkinmocks/components/parametric.py:ParametricComponent", "popkinmocks/components/growing_disk.py:GrowingDisk.set_mu_v", "popkinmocks/components/particle.py:FromParticle.__init__"]}
{"id": "C104", "title": "Components made from returned densities", "statement": "Component(cube, log_p=c.get_log_p('tvxz', light_weighted=lw)) can be made, and with weighting lw' it returns every distribution, moment, covariance and L-moment which c returns with weighting 'lw or lw'' (not both light-weighted); made from mass-weighted densities it also has the same datacube. The same holds for a mixture of base components stored as one component: its distributions, datacube and L-moments everywhere, its means, central moments and covariances wherever every member has mass. For a parametric component the stored one agrees in all distributions of or given the velocity, and in the others misses the mass outside the range of velocities. One particle at the centre of each bin, weighted by the bin's probability, gives the component back, normalised, with no particle lost.", "quantifier": "all grids, non-negative densities, mixtures of base components, parametric models, queries, weightings and orders", "why_tests_cant": "Tests do not feed the output of a component into another; agreement must hold for every query.", "anchors": ["popkinmocks/components/base.py:Component.__init__", "popkinmocks/components/base.py:Component.get_log_p", "popkinmocks/components/mixture.py:Mixture.get_log_p", "popkinmocks/components/parametric.py:ParametricComponent", "popkinmocks/components/particle.py:FromParticle.__init__"]}
{"id": "C105", "title": "Attributes kept for the record", "statement": "After any history of setter calls the attributes of a GrowingDisk or Stream that are only kept for the record (t_pars with its parameters, x_t_pars, t_dep_pars, mu_v_pars, sig_v_pars, mu_v_lims) are the arguments of the last accepted call of their setter, and p_x_pars and nsmp those of the last call of set_p_x_t with valid angles; keeping them changes no result and no exception; the exponentials p_t, p_x_t and p_z_tx are the distributions returned by the queries; idx_start_end is one more than the index of the age bin that holds the start or end time; calling a setter again with what is recorded changes nothing while set_p_t (for a stream's set_mu_v: the angles) is still the one in force, and the recorded calls of a disk set up in order with default quantiles make it again from a new component.", "quantifier": "all histories of setter calls, arguments, grids", "why_tests_cant": "Tests never read these attributes, and no finite set of histories covers all interleavings of setters.", "anchors": ["popkinmocks/components/parametric.py:ParametricComponent.set_p_t", "popkinmocks/components/growing_disk.py:GrowingDisk", "popkinmocks/components/stream.py:Stream"]}
{"id": "C106", "title": "Arguments left out and lists handed over", "statement": "Every setter of a GrowingDisk or Stream but set_p_t may be called without arguments, set_p_t without lmd or phi raises TypeError and changes nothing; after a valid set_p_t and the default calls every distribution can be queried, and the component represents the model with the default parameters in the source. A Stream given lists behaves as if given their entries, whatever other streams do, so long as no list is edited while the stream keeps it; no setter edits a list; edits never change distributions without velocity.", "quantifier": "all interleavings of setter calls on any number of streams and of edits of lists", "why_tests_cant": "The defaults are mutable lists shared by all streams; which sequences of calls and edits reach a stream cannot be enumerated.", "anchors": ["popkinmocks/components/stream.py:Stream.set_p_x_t", "popkinmocks/components/stream.py:Stream.set_mu_v", "popkinmocks/components/growing_disk.py:GrowingDisk", "popkinmocks/components/parametric.py:ParametricComponent.set_p_t"]}
{"id": "C107", "title": "Components with nearby densities", "statement": "For two components on one grid: a distribution of fewer variables differs by no more, in each bin and in total absolute difference, than one of more variables; a conditional distribution differs in total by at most twice the difference of its column of the joint over the column's total; light weighting multiplies differences by at most twice the largest light of a template over the total light; means (conditional or not) differ by at most half the span of bin centres times the difference of the distributions, and variances by at most half the squared span times it; two mixtures differ by at most the weighted differences of their members plus the changes of the weights times the members' masses; a pixel of the datacube differs by at most the largest template entry times the difference of the bin probabilities in it, when there are as many velocity bins as pixels.", "quantifier": "all grids, densities, weights, light weights, distributions and bins", "why_tests_cant": "An inequality for all pairs of densities; tests compare single components with single references.", "anchors": ["popkinmocks/components/base.py:Component.get_p", "popkinmocks/components/base.py:Component.get_mean", "popkinmocks/components/base.py:Component.get_variance", "popkinmocks/components/mixture.py:Mixture.get_p", "popkinmocks/components/base.py:Component.evaluate_ybar"]}
{"id": "C108", "title": "Rotation curves with any radius of maximum", "statement": "set_mu_v of a GrowingDisk checks the axis ratios and velocities but not rmax. For any rmax the map of an age is vmax 27 rmax^2 x/(r + 2 rmax)^3 off the ellipse r = -2 rmax, infinite with the sign of vmax x (nan for vmax x = 0) on it, and nan at every pixel when rmax is 0 at that age. With a negative radius the disk turns the other way within that ellipse and reaches 27 times vmax at the radius, so the bound of C45 fails. A zero radius at one age makes the mass-weighted p(v|t,x) and p(t,v,x) nan at that age and p(v) nan everywhere, and leaves all distributions without velocity as they were.", "quantifier": "all grids, ages, pixels, axis ratios, velocities and radii", "why_tests_cant": "Tests use positive radii only.", "anchors": ["popkinmocks/components/growing_disk.py:GrowingDisk.set_mu_v"]}
{"id": "C109", "title": "Limits of any number of values", "statement": "The limits handed to the setters of GrowingDisk and Stream may be a single number or a list of any length. Lists of two behave as the pairs of the other claims, over whole histories of calls. A disk's set_p_x_t, set_t_dep, set_mu_v and set_sig_v given anything but pairs raises AssertionError if the range checks fail and TypeError otherwise, and leaves the disk as it was; set_p_t raises ValueError for a list and TypeError for a number. A stream's set_p_x_t refuses an empty list or angles out of range before keeping them, but keeps theta_lims before it unpacks the limits: with angles or radii which are not two it raises with the new angles kept. set_mu_v then uses the first two kept angles for the direction and the least and greatest for the range, or raises TypeError for a kept number and IndexError for a kept list of one. A raised call changes nothing of a stream but the kept angles, yet it is not harmless: after a valid track, a refused single angle makes a valid set_mu_v raise.", "quantifier": "all components, all limits of any length, all histories of calls", "why_tests_cant": "Tests pass pairs only and stop at the first error.", "anchors": ["popkinmocks/components/growing_disk.py:GrowingDisk.linear_interpolate_t", "popkinmocks/components/stream.py:Stream.set_p_x_t", "popkinmocks/components/stream.py:Stream.set_mu_v"]}
{"id": "C110", "title": "Mixtures of one parametric component", "statement": "A mixture of one parametric component with weight 1 has the component's marginal distributions, mass- and light-weighted, and its conditional distributions wherever the condition has mass; elsewhere the mixture's are nan while the component returns its stored p(x|t), p(z|t,x) and p(v|t,x). Light-weighted p(v|t,x) is different: the mixture divides by p(t,x), the component by the sum over the velocities of the cube, and the two agree exactly at ages and pixels whose fraction of velocities within the cube is that of all the light. Means and central moments of age, position and metallicity agree (nan included), and those of the velocity wherever there is mass.", "quantifier": "all parametric components, distribution strings, weightings and bins", "why_tests_cant": "Tests do not compare a mixture with its only member.", "anchors": ["popkinmocks/components/mixture.py:Mixture.get_log_p", "popkinmocks/components/parametric.py:ParametricComponent._get_log_p_v_tx"]}
{"id": "C111", "title": "Thinning by any integer or None", "statement": "The thinning factors of milesSSPs are steps of a slice over the distinct sorted values. A positive factor k keeps every k-th value counted from the smallest, a negative one every |k|-th counted from the largest, None keeps everything and zero raises ValueError. Opposite factors keep the same values exactly when the factor divides the number of distinct values less one. Whatever the sign, the spectra are stored in increasing order of metallicity and age, the file with the i-th metallicity and j-th age in its column. None, 1 and -1 keep every file, but only 1 is the default request: without the cache file the default request raises AttributeError while None or -1 reads the same files, and with the cache file present None or -1 ignores it.", "quantifier": "all directories of template files, all limits, all integer or None factors", "why_tests_cant": "The tests thin by one positive factor of one directory that has its cache file.", "anchors": ["popkinmocks/read_miles.py:milesSSPs.thin_model_grid", "popkinmocks/read_miles.py:milesSSPs.read_spectra", "popkinmocks/read_miles.py:milesSSPs.__init__"]}
{"id": "C112", "title": "Binning by any factor, and twice", "statement": "bin_pixels compares its factor with 1 and only then calls int(). A factor with integer part k other than 1 acts as k and the factor 1 changes nothing, but a factor strictly between 1 and 2 drops every pixel and wavelength. Factors strictly between -1 and 1 raise ZeroDivisionError, those up to -1 ValueError. Binning by k and then by j puts the pixels b*(n/k) + a*(n/(k*j)) + i for b < k and a < j in bin i. It is not binning by k*j: unless the second call drops everything, there is a pixel whose light the two calls keep and the single call loses.", "quantifier": "all spectra, all real factors, all whole k and j of at least 2", "why_tests_cant": "Rounding and repeated calls are not tested, and agreement for one number of pixels says nothing of others.", "anchors": ["popkinmocks/read_miles.py:milesSSPs.bin_pixels"]}
{"id": "C113", "title": "Repeated truncation of the templates", "statement": "A sequence of truncate_wavelengths calls of which none raises keeps exactly the pixels inside every request, so neither the order of the requests nor repeating one matters. But whether a call raises depends on the calls before it: a request whose limits are wavelengths of pixels can be repeated, one with a limit between pixels raises ValueError the second time, since the limits are compared with the pixels that are left. A request between two neighbouring pixels is not refused: it leaves no pixels and every later truncation raises ValueError. Binned templates cannot be truncated at a wavelength of the unbinned ones.", "quantifier": "all template sets, all sequences of requests", "why_tests_cant": "Whether a call raises depends on the whole sequence before it.", "anchors": ["popkinmocks/read_miles.py:milesSSPs.truncate_wavelengths", "popkinmocks/read_miles.py:milesSSPs.bin_pixels"]}
{"id": "C114", "title": "Reset undoes any history", "statement": "On an object returned by the constructor of milesSSPs, after any sequence of truncate_wavelengths, bin_pixels and reset calls, those that raise included, the directory is unchanged, the names, limits, thinning factors and grid of the object are unchanged, and reset succeeds and gives the object as constructed. So the calls before a reset are forgotten. A truncation that raises changes nothing; with at least one template a binning raises only for factors below 1, and then changes nothing.", "quantifier": "all directories, all constructor arguments, all sequences of calls", "why_tests_cant": "There are infinitely many sequences of calls.", "anchors": ["popkinmocks/read_miles.py:milesSSPs.reset", "popkinmocks/read_miles.py:milesSSPs.read_spectra", "popkinmocks/read_miles.py:milesSSPs.truncate_wavelengths", "popkinmocks/read_miles.py:milesSSPs.bin_pixels"]}
{"id": "C115", "title": "Pixels of the resampled templates", "statement": "With a velocity step dv > 0, the resampled templates have pixels at lo exp(i dv / 299792), where lo is the least wavelength: neighbours are dv km/s apart, all pixels lie below the greatest wavelength hi, and one more pixel would reach it. Each template is the interpolant of its fluxes at the logarithm of these wavelengths. The templates have 4300 wavelengths, from 3540.5 to 7409.6 in steps of 0.9 Angstrom.", "quantifier": "all SSP objects with positive wavelengths, all velocity steps dv > 0, all interpolants", "why_tests_cant": "The step is any real number, and tests see the number of pixels for the few steps tried.", "anchors": ["popkinmocks/model_grids.py:milesSSPs._logarithmically_resample", "popkinmocks/read_miles.py:milesSSPs.get_lmd"]}
