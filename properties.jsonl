{"id": "C01", "title": "Overlap removal yields ordered, non-degenerate, disjoint intervals", "statement": "get_nonoverlapping_intervals always terminates and returns intervals with start < end, ordered in time, each one ending no later than the next one starts.", "quantifier": "every finite list of ((start, end), object) pairs whose bounds are not NaN, in any order, with any overlaps, inverted or empty intervals included", "why_tests_cant": "the number of overlap configurations is infinite and the while-loop splits one input interval into arbitrarily many pieces", "anchors": ["eoxmagmod/eoxmagmod/magnetic_model/util.py:get_nonoverlapping_intervals"]}
{"id": "C02", "title": "Overlap removal is first-wins and loses no time", "statement": "For every instant t, the object found in the result of get_nonoverlapping_intervals at t (start <= t < end) is the object of the first input interval that contains t, and there is none exactly if no input interval contains t.", "quantifier": "every input list and every instant t", "why_tests_cant": "quantifies over all lists and all instants", "anchors": ["eoxmagmod/eoxmagmod/magnetic_model/util.py:get_nonoverlapping_intervals"]}
{"id": "C03", "title": "Interval aggregation computes the pairwise intersection", "statement": "aggregate_intersected_intervals of two time-ordered non-overlapping lists returns, for every instant t, exactly the aggregate of t extended with the object of t when both lists cover t, and nothing otherwise; every instant covered (closed intervals) by both inputs is covered by the result.", "quantifier": "all pairs of ordered non-overlapping interval lists of any length and every instant t", "why_tests_cant": "two-pointer merge over unbounded lists", "anchors": ["eoxmagmod/eoxmagmod/magnetic_model/util.py:aggregate_intersected_intervals"]}
{"id": "C04", "title": "Accepted compositions have no time gap", "statement": "When ComposedSHCoefficients(*items) is accepted, every instant of its validity range is within the validity range of at least one item, and its validity range is the hull of the items' ranges; a set of items which leaves a gap is rejected.", "quantifier": "any number of items with any validity ranges in any order, every instant", "why_tests_cant": "unbounded number of items and of orders", "anchors": ["eoxmagmod/eoxmagmod/magnetic_model/coefficients.py:ComposedSHCoefficients.__init__"]}
{"id": "C05", "title": "Gap-free compositions are accepted", "statement": "ComposedSHCoefficients(*items) raises the time-gap error only if there is really a gap between the items' validity ranges.", "quantifier": "any number of items with any validity ranges", "why_tests_cant": "needs a counter-example search over all overlap patterns or a proof", "anchors": ["eoxmagmod/eoxmagmod/magnetic_model/coefficients.py:ComposedSHCoefficients.__init__"]}
{"id": "C06", "title": "Composed coefficients: array evaluation equals scalar evaluation", "statement": "ComposedSHCoefficients called with an array of times returns for each element, up to zero padding, what a call with that single time returns: the coefficients of the first item valid at that time, or of the first item if none is valid.", "quantifier": "all item lists, all time arrays (NaN included), all positions", "why_tests_cant": "mask bookkeeping over arrays of any size and any number of items", "anchors": ["eoxmagmod/eoxmagmod/magnetic_model/coefficients.py:ComposedSHCoefficients._get_coeff_multi_time", "eoxmagmod/eoxmagmod/magnetic_model/coefficients.py:ComposedSHCoefficients._get_coeff_single_time"]}
{"id": "C07", "title": "Combined coefficients are the sum of their parts", "statement": "CombinedSHCoefficients called with a time returns the zero-padded sum of the coefficients of all items; the result does not depend on the order of the items, and nested combinations flatten.", "quantifier": "all item lists, nestings, permutations, times", "why_tests_cant": "all permutations and nestings of unboundedly many items", "anchors": ["eoxmagmod/eoxmagmod/magnetic_model/coefficients.py:CombinedSHCoefficients.__call__"]}
{"id": "C08", "title": "Validity, degree and minimum degree of combined and composed sets", "statement": "The validity of a combined set is the intersection of the items' closed ranges (an instant is valid iff it is valid for every item), its degree is the largest and its minimum degree the smallest of the items', and mixing internal and external items is rejected, all regardless of the order of the items; likewise for composed sets with the hull of the ranges.", "quantifier": "all item lists and permutations, all instants", "why_tests_cant": "any number of items in any order", "anchors": ["eoxmagmod/eoxmagmod/magnetic_model/coefficients.py:CombinedSHCoefficients.__init__", "eoxmagmod/eoxmagmod/magnetic_model/coefficients.py:ComposedSHCoefficients.__init__"]}
{"id": "C09", "title": "Scalar-time and array-time model evaluation agree", "statement": "model.eval(t, x) for a scalar t equals the corresponding element of model.eval(times, locations) for arrays containing t and x at the same position.", "quantifier": "all coefficient trees, all times including validity boundaries, all arrays", "why_tests_cant": "depends on every boundary instant of every component list", "anchors": ["eoxmagmod/eoxmagmod/magnetic_model/model.py:SphericalHarmomicGeomagneticModel.eval"]}
{"id": "C10", "title": "Model evaluation returns NaN exactly outside of the validity", "statement": "model.eval returns NaN vectors for every time which is outside all components' validity ranges (and for NaN times), and for a time inside a component the vector of a component valid at that time.", "quantifier": "all component lists, all time arrays", "why_tests_cant": "all times and component lists", "anchors": ["eoxmagmod/eoxmagmod/magnetic_model/model.py:SphericalHarmomicGeomagneticModel.eval"]}
{"id": "C11", "title": "Decomposition preserves the coefficients and the validity", "statement": "For coefficient trees whose composed nodes are ordered and non-overlapping, an instant is covered by coefficients.decompose() iff it is in the validity of the tree, and the component covering it yields the same coefficients as calling the tree directly.", "quantifier": "all coefficient trees of any depth, all instants", "why_tests_cant": "unbounded tree shapes", "anchors": ["eoxmagmod/eoxmagmod/magnetic_model/coefficients.py:ComposedSHCoefficients.decompose", "eoxmagmod/eoxmagmod/magnetic_model/coefficients.py:CombinedSHCoefficients.decompose"]}
{"id": "C12", "title": "Degree subsetting selects exactly the requested degrees", "statement": "A coefficient set evaluated with min_degree and max_degree contains exactly the coefficients whose degree is within the bounds (negative bound = unbounded), everything else is zero, and the returned degree is the largest retained degree (0 if none).", "quantifier": "all sparse sets, all bounds (negative and out of range included)", "why_tests_cant": "all bounds and all index sets", "anchors": ["eoxmagmod/eoxmagmod/magnetic_model/coefficients.py:SparseSHCoefficients.subset_degree"]}
{"id": "C13", "title": "The packed coefficient index is collision-free and in bounds", "statement": "Two coefficients of a set of degree N land in the same cell of the full coefficient array iff they have the same degree and order, every cell is within an array of coeff_size(N) rows, and every cell except the sine cells of order zero is the cell of some coefficient.", "quantifier": "all degrees n <= N and orders -n <= m <= n, all N", "why_tests_cant": "quadratic packing must be injective for all degrees", "anchors": ["eoxmagmod/eoxmagmod/magnetic_model/coefficients.py:SparseSHCoefficients.__init__", "eoxmagmod/eoxmagmod/magnetic_model/util.py:coeff_size", "eoxmagmod/eoxmagmod/pymm_shevaltemp.h:_coefset_init"]}
{"id": "C14", "title": "Array size determines the degree", "statement": "The degree derived from a coefficient array of coeff_size(N) rows is N, and for any other number of rows it is the largest degree that fits.", "quantifier": "all array sizes", "why_tests_cant": "square root and truncation for all sizes", "anchors": ["eoxmagmod/eoxmagmod/pymm_sphar_common.h:_size_to_degree"]}
{"id": "C15", "title": "Time-series coefficients do not depend on the order of the snapshots", "statement": "A SparseSHCoefficientsTimeDependent set built from snapshots in any order is the same as the one built from the snapshots sorted by time: same validity, same values at all times.", "quantifier": "all snapshot lists with distinct times, all permutations, all query times", "why_tests_cant": "all permutations", "anchors": ["eoxmagmod/eoxmagmod/magnetic_model/coefficients.py:SparseSHCoefficientsTimeDependent.__init__"]}
{"id": "C16", "title": "Bisection finds the bracketing interval", "statement": "bisect(v, x, side=RIGHT) returns the i with v[i] <= x < v[i+1] (side=LEFT: v[i] < x <= v[i+1]), -1 below the first node and n-1 above the last one; it terminates and reads only inside of the array.", "quantifier": "all sorted arrays of any length (repeated values included), all x", "why_tests_cant": "all lengths and all positions", "anchors": ["eoxmagmod/eoxmagmod/include/bisect.h:bisect_right", "eoxmagmod/eoxmagmod/include/bisect.h:bisect_left", "eoxmagmod/eoxmagmod/pymm_bisect.h"]}
{"id": "C17", "title": "Piecewise-linear interpolation hits the nodes and is linear in between", "statement": "interp(t, nodes, values, kind=C1) returns the node value at each node, the straight line through the two neighbouring nodes in between, and the line of the first (last) interval outside of the nodes with extrapolate=True and NaN with extrapolate=False.", "quantifier": "all strictly increasing node lists of length >= 2, all values, all t", "why_tests_cant": "all node lists and all times", "anchors": ["eoxmagmod/eoxmagmod/include/interpolation.h:get_interp1_basis", "eoxmagmod/eoxmagmod/include/interpolation.h:interp1_eval", "eoxmagmod/eoxmagmod/pymm_interp.h:_interp"]}
{"id": "C18", "title": "Piecewise-constant interpolation holds the last node value", "statement": "interp(t, nodes, values, kind=C0) returns the value of the last node not after t, with extrapolate=True the first value before the first node, and NaN outside of the nodes with extrapolate=False.", "quantifier": "all increasing node lists, all t", "why_tests_cant": "all node lists and all times", "anchors": ["eoxmagmod/eoxmagmod/include/interpolation.h:get_interp0_basis", "eoxmagmod/eoxmagmod/pymm_interp.h:_interp"]}
{"id": "C19", "title": "Interpolation derivative kind is the slope of the interpolant", "statement": "interp(t, nodes, values, kind=C1D1) is the derivative with respect to t of interp(t, nodes, values, kind=C1) for every t which is not a node.", "quantifier": "all node lists, all non-node times", "why_tests_cant": "a derivative is a limit", "anchors": ["eoxmagmod/eoxmagmod/include/interpolation.h:get_interp1d1_basis"]}
{"id": "C20", "title": "Batch evaluation of sheval is pointwise", "statement": "sheval over an array of positions yields for each element what a separate call for that position yields, independent of the neighbouring elements, despite the caching of the Legendre, longitude and radius terms between consecutive elements.", "quantifier": "all sequences of positions, all coordinate systems, all coefficients", "why_tests_cant": "the cache depends on the whole history of evaluated points", "anchors": ["eoxmagmod/eoxmagmod/pymm_sheval.h:_model_eval", "eoxmagmod/eoxmagmod/pymm_sheval.h:_model_init"]}
{"id": "C21", "title": "Batch evaluation of shevaltemp is pointwise", "statement": "shevaltemp over arrays of times and positions yields for each element what a separate call for that time and position yields, although the interpolated coefficients are cached between elements.", "quantifier": "all sequences of (time, position) pairs and all lists of coefficient sets", "why_tests_cant": "the cached coefficients depend on the whole history of evaluated times", "anchors": ["eoxmagmod/eoxmagmod/pymm_shevaltemp.h:_coeff_interp", "eoxmagmod/eoxmagmod/pymm_shevaltemp.h:_coeff_set_interp0", "eoxmagmod/eoxmagmod/pymm_shevaltemp.h:_coeff_set_interp1"]}
{"id": "C22", "title": "Optimised evaluation agrees with the coefficients", "statement": "Evaluating a model through the coefficient-set path (shevaltemp) gives the same field as calling its coefficients for that time and evaluating them with sheval, in particular for combined sets the sum of the fields of the combined sets.", "quantifier": "all lists of coefficient sets including sets sharing the same (n, m), all times", "why_tests_cant": "all coefficient lists", "anchors": ["eoxmagmod/eoxmagmod/magnetic_model/model.py:SphericalHarmomicGeomagneticModel._eval_interpolated", "eoxmagmod/eoxmagmod/pymm_shevaltemp.h:_coeff_set_interp1", "eoxmagmod/eoxmagmod/magnetic_model/coefficients.py:CombinedSHCoefficients.__call__"]}
{"id": "C23", "title": "Batch evaluation of sheval2dfs is pointwise", "statement": "sheval2dfs over arrays of both times and positions yields for each element what a separate call yields.", "quantifier": "all sequences of (time1, time2, position)", "why_tests_cant": "cache depends on history", "anchors": ["eoxmagmod/eoxmagmod/pymm_sheval2dfs.h"]}
{"id": "C24", "title": "Legendre functions are the Schmidt semi-normalised ones", "statement": "legendre(latitude, degree) returns for every n <= degree and m <= n the Schmidt semi-normalised associated Legendre function of the sine of the latitude.", "quantifier": "all degrees, all latitudes in [-90, 90]", "why_tests_cant": "all degrees and a continuum of latitudes", "anchors": ["eoxmagmod/eoxmagmod/include/spherical_harmonics.h:shc_legendre_low", "eoxmagmod/eoxmagmod/include/spherical_harmonics.h:shc_legendre"]}
{"id": "C25", "title": "Legendre derivatives are the derivatives", "statement": "The derivative array returned by legendre is the derivative of the function array with respect to the latitude.", "quantifier": "all degrees, orders and latitudes", "why_tests_cant": "a derivative is a limit", "anchors": ["eoxmagmod/eoxmagmod/include/spherical_harmonics.h:shc_legendre_low"]}
{"id": "C26", "title": "The two Legendre algorithms agree", "statement": "The low-degree and the high-degree algorithm compute the same functions and derivatives at every latitude where both apply, so that switching between them never changes a result.", "quantifier": "all degrees and all latitudes off the poles", "why_tests_cant": "all degrees", "anchors": ["eoxmagmod/eoxmagmod/include/spherical_harmonics.h:shc_legendre_low", "eoxmagmod/eoxmagmod/include/spherical_harmonics.h:shc_legendre_high"]}
{"id": "C27", "title": "Relative radius powers", "statement": "relradpow(radius, degree, reference_radius) returns (reference/radius)**(i+2) for internal and (radius/reference)**(i-1) for external fields for every i <= degree.", "quantifier": "all degrees and radii", "why_tests_cant": "all degrees", "anchors": ["eoxmagmod/eoxmagmod/include/spherical_harmonics.h:shc_relradpow_internal", "eoxmagmod/eoxmagmod/include/spherical_harmonics.h:shc_relradpow_external"]}
{"id": "C28", "title": "Longitude series are the sines and cosines of the multiples", "statement": "loncossin(longitude, degree) returns cos(i*lon) and sin(i*lon) for every i <= degree.", "quantifier": "all degrees and longitudes", "why_tests_cant": "recurrence of arbitrary length", "anchors": ["eoxmagmod/eoxmagmod/include/fourier_series.h:fs_cos_sin"]}
{"id": "C29", "title": "2D Fourier series evaluation", "statement": "fourier2d(x, y, ab, min1, min2, s1, s2) is the double sum over all i, j of a*cos(i*s1*x + j*s2*y) + b*sin(i*s1*x + j*s2*y), negative degrees included.", "quantifier": "all coefficient sizes, minimum degrees (negative included), scales and times", "why_tests_cant": "all sizes and degree ranges", "anchors": ["eoxmagmod/eoxmagmod/include/fourier_series.h:fs_cos_sin_2d", "eoxmagmod/eoxmagmod/include/fourier_series.h:fs_eval_2d", "eoxmagmod/eoxmagmod/pymm_fourier2d.h"]}
{"id": "C30", "title": "Gradient is the derivative of the potential", "statement": "The gradient returned by sheval is the derivative of the potential returned by sheval along the northward, eastward and radial directions.", "quantifier": "all coefficient sets of any degree, internal and external, all positions off the poles with positive radius", "why_tests_cant": "a derivative is a limit; all degrees", "anchors": ["eoxmagmod/eoxmagmod/include/spherical_harmonics.h:shc_eval_dv", "eoxmagmod/eoxmagmod/include/spherical_harmonics.h:shc_eval_v"]}
{"id": "C31", "title": "Azimuthal gradient at the poles", "statement": "The eastward gradient returned at a pole along a longitude is the limit of the eastward gradient when the pole is approached along that longitude.", "quantifier": "all coefficient sets, all longitudes, both poles", "why_tests_cant": "a limit", "anchors": ["eoxmagmod/eoxmagmod/include/spherical_harmonics.h:shc_eval_dvaz_pole"]}
{"id": "C32", "title": "The potential is harmonic", "statement": "The potential returned by sheval satisfies Laplace's equation in spherical coordinates.", "quantifier": "all coefficient sets, all positions off the poles, internal and external", "why_tests_cant": "second derivatives over a continuum and all degrees", "anchors": ["eoxmagmod/eoxmagmod/include/spherical_harmonics.h:shc_eval_v"]}
{"id": "C33", "title": "Field is linear in the coefficients", "statement": "sheval is linear in the coefficients: the field of a sum (multiple) of coefficient arrays is the sum (multiple) of the fields.", "quantifier": "all coefficient arrays of any degree, all positions", "why_tests_cant": "all arrays", "anchors": ["eoxmagmod/eoxmagmod/include/spherical_harmonics.h:shc_eval"]}
{"id": "C34", "title": "Evaluation modes are consistent", "statement": "sheval in the mode POTENTIAL_AND_GRADIENT returns exactly what the POTENTIAL and the GRADIENT modes return separately.", "quantifier": "all coefficients and positions", "why_tests_cant": "three separate code paths of sums of any length", "anchors": ["eoxmagmod/eoxmagmod/include/spherical_harmonics.h:shc_eval_v_dv"]}
{"id": "C35", "title": "Truncation by degree equals dropping coefficients", "statement": "sheval with degree=d evaluates like sheval of the coefficients with all degrees above d set to zero, and padding a coefficient array with zeros does not change the field.", "quantifier": "all arrays, all d", "why_tests_cant": "all degrees", "anchors": ["eoxmagmod/eoxmagmod/include/spherical_harmonics.h:shc_eval", "eoxmagmod/eoxmagmod/pymm_sphar_common.h"]}
{"id": "C36", "title": "Cartesian and spherical coordinates round trip", "statement": "convert from spherical to Cartesian and back returns the original latitude, longitude in (-180, 180] and radius, and from Cartesian to spherical and back returns the original point.", "quantifier": "all points other than the origin; the longitude is recovered off the axis", "why_tests_cant": "a continuum", "anchors": ["eoxmagmod/eoxmagmod/include/geo_conversion.h:sph2cart", "eoxmagmod/eoxmagmod/include/geo_conversion.h:cart2sph"]}
{"id": "C37", "title": "Geodetic and geocentric coordinates round trip", "statement": "convert from geodetic to geocentric and back returns the original geodetic latitude, longitude and height.", "quantifier": "all latitudes in [-90, 90], all longitudes, all heights for which the point is beyond the evolute of the ellipsoid, in particular all heights of at least -6290 km", "why_tests_cant": "a quartic solution over a continuum", "anchors": ["eoxmagmod/eoxmagmod/include/geo_conversion.h:_geodetic2geocentric", "eoxmagmod/eoxmagmod/include/geo_conversion.h:_geocentric2geodetic"]}
{"id": "C38", "title": "Conversion is consistent across coordinate systems", "statement": "Converting A to B to C is the same as converting A to C directly, for all three coordinate systems, and the conversion to the same system is the identity.", "quantifier": "all points with a unique representation", "why_tests_cant": "a continuum", "anchors": ["eoxmagmod/eoxmagmod/pymm_cconv.h", "eoxmagmod/eoxmagmod/include/geo_conversion.h"]}
{"id": "C39", "title": "Vector rotations are isometries and inverse to each other", "statement": "vrot_sph2cart and vrot_cart2sph, and vrot_sph2geod with opposite angles, are inverse to each other, preserve the vector magnitude and scalar products.", "quantifier": "all vectors and angles", "why_tests_cant": "a continuum", "anchors": ["eoxmagmod/eoxmagmod/pymm_vrot_sph2cart.h", "eoxmagmod/eoxmagmod/pymm_vrot_cart2sph.h", "eoxmagmod/eoxmagmod/pymm_vrot_sph2geod.h"]}
{"id": "C40", "title": "Rotated frames are the local frames", "statement": "vrot_sph2cart maps north, east and up unit vectors to the directions in which the Cartesian position moves when latitude, longitude and radius grow; with the geodetic latitude, the up vector is normal to the WGS84 ellipsoid.", "quantifier": "all positions off the poles", "why_tests_cant": "a derivative over a continuum", "anchors": ["eoxmagmod/eoxmagmod/pymm_vrot_sph2cart.h", "eoxmagmod/eoxmagmod/include/geo_conversion.h"]}
{"id": "C41", "title": "Output coordinate system only rotates the field", "statement": "The field evaluated by sheval in any of the output coordinate systems is the spherical output rotated by the corresponding vrot function; the magnitude does not depend on the output system, and the result does not depend on the system in which the position is given.", "quantifier": "all positions, all coefficients, all coordinate-system combinations", "why_tests_cant": "a continuum", "anchors": ["eoxmagmod/eoxmagmod/pymm_sheval.h:_model_eval", "eoxmagmod/eoxmagmod/util.py:vrotate"]}
{"id": "C42", "title": "vrotate composes", "statement": "vrotate from A to B followed by B to C equals vrotate from A to C, and unsupported combinations raise.", "quantifier": "all frames, vectors and positions", "why_tests_cant": "a continuum", "anchors": ["eoxmagmod/eoxmagmod/util.py:vrotate"]}
{"id": "C43", "title": "Dipole rotation matrix is a rotation", "statement": "get_dipole_rotation_matrix(lat, lon) is orthogonal with determinant one and maps the dipole axis onto the pole; convert_to_dipole preserves the radius and is invertible.", "quantifier": "all pole positions and points", "why_tests_cant": "a continuum", "anchors": ["eoxmagmod/eoxmagmod/dipole_coords.py"]}
{"id": "C44", "title": "Dipole-frame models are rotated models", "statement": "Evaluating a model in dipole coordinates returns the field of the same model rotated rigidly by the dipole rotation: the magnitude equals the magnitude of the underlying model at the rotated point.", "quantifier": "all positions, poles, coefficients", "why_tests_cant": "a continuum", "anchors": ["eoxmagmod/eoxmagmod/magnetic_model/model.py:DipoleSphericalHarmomicGeomagneticModel._eval", "eoxmagmod/eoxmagmod/dipole.py:rotate_vectors_from_dipole"]}
{"id": "C45", "title": "Decimal year and MJD2000 conversions round trip", "statement": "decimal_year_to_mjd2000 and mjd2000_to_decimal_year are inverse to each other.", "quantifier": "all times from 1 March of the year -4716 (the range of the Julian day formulas)", "why_tests_cant": "all days over centuries and all fractions", "anchors": ["eoxmagmod/eoxmagmod/include/time_conversion.h:mjd2k_to_decimal_year", "eoxmagmod/eoxmagmod/include/time_conversion.h:decimal_year_to_mjd2k"]}
{"id": "C46", "title": "Decimal year is strictly increasing and continuous across years", "statement": "mjd2000_to_decimal_year is strictly increasing; integer part is the calendar year, and the year fraction is in [0, 1).", "quantifier": "all times from 1 March of the year -4716", "why_tests_cant": "all year boundaries", "anchors": ["eoxmagmod/eoxmagmod/include/time_conversion.h"]}
{"id": "C47", "title": "Calendar dates are correct", "statement": "The conversion of a day to year, month and day is the proleptic-free (Julian before 15 October 1582, Gregorian after) calendar date: consecutive days have consecutive dates according to the lengths of months.", "quantifier": "all days from 1 March of the year -4716 (the range of the Julian day formulas)", "why_tests_cant": "unbounded range of days", "anchors": ["eoxmagmod/eoxmagmod/include/time_conversion.h:mjd2k_to_date"]}
{"id": "C48", "title": "Year starts and lengths", "statement": "Consecutive years start the length of the year apart, the length being 366 days in leap years and 365 days otherwise, with the leap-year rule of the calendar in force.", "quantifier": "all years from -4799", "why_tests_cant": "all years", "anchors": ["eoxmagmod/eoxmagmod/include/time_conversion.h:mjd2k_year_start", "eoxmagmod/eoxmagmod/include/time_conversion.h:is_leap_year"]}
{"id": "C49", "title": "Magnetic universal time is the dipole longitude of the Sun", "statement": "mjd2000_to_magnetic_universal_time returns a value in [0, 24) hours which is 12 h minus the dipole longitude of the sub-solar point divided by 15 degrees per hour.", "quantifier": "all sub-solar points and dipole axes", "why_tests_cant": "a continuum", "anchors": ["eoxmagmod/eoxmagmod/magnetic_time.py"]}
{"id": "C50", "title": "Solar position angles are within their ranges", "statement": "sunpos returns right ascension in [0, 360), hour angle in [-180, 180), azimuth in [-180, 180) and declination within [-90, 90] degrees.", "quantifier": "all times and places", "why_tests_cant": "a continuum", "anchors": ["eoxmagmod/eoxmagmod/include/sun_ephemeris.h"]}
{"id": "C51", "title": "Composed model is the weighted sum of its components", "statement": "ComposedGeomagneticModel.eval is the sum of the component fields, each with its own scale and its own options overriding the common ones, times the final scale, rotated once to the output system; it does not depend on the order in which the components were pushed.", "quantifier": "all sequences of pushes, all options, times, positions", "why_tests_cant": "all sequences of pushes", "anchors": ["eoxmagmod/eoxmagmod/magnetic_model/model_composed.py:ComposedGeomagneticModel"]}
{"id": "C52", "title": "Composed model validity", "statement": "The validity of a composed model is the intersection of the validities of the components, whatever the order of the pushes; an empty intersection is never reported as a range containing a finite instant.", "quantifier": "all sequences of pushes", "why_tests_cant": "all sequences", "anchors": ["eoxmagmod/eoxmagmod/magnetic_model/model_composed.py:_validity_overlap", "eoxmagmod/eoxmagmod/magnetic_model/model_composed.py:ComposedGeomagneticModel.push"]}
{"id": "C53", "title": "Field-line tracing structure", "statement": "trace_field_line returns as many field vectors as points, at most 2*max_steps+1 points, the starting point being one of them; every inner point is strictly within the radius bounds, each field vector is the model field at its point, and consecutive points are one step along the field apart.", "quantifier": "all models (arbitrary field functions), starting points and options", "why_tests_cant": "all histories of the tracing loop", "anchors": ["eoxmagmod/eoxmagmod/magnetic_model/field_lines.py"]}
{"id": "C54", "title": "MIO model switches at the ionospheric height", "statement": "The MIO primary model uses the below-ionosphere model for radii not above and the above-ionosphere model for radii above the ionosphere height, element by element; the scale with F10.7 is 1 + W*F10.7 and NaN inputs yield NaN.", "quantifier": "all arrays of positions, all parameters", "why_tests_cant": "mask bookkeeping over arrays of any size", "anchors": ["eoxmagmod/eoxmagmod/magnetic_model/model_mio.py"]}
{"id": "C55", "title": "MIO external to internal conversion is continuous", "statement": "The conversion of the external to the internal MIO coefficients above the ionosphere keeps the radial field component continuous at the ionosphere height.", "quantifier": "all coefficients of all degrees", "why_tests_cant": "all degrees, continuum of positions", "anchors": ["eoxmagmod/eoxmagmod/magnetic_model/loader_mio.py:convert_external_mio_coeff"]}
{"id": "C56", "title": "WMM secular variation", "statement": "The coefficients loaded from a WMM file are at every time the value at the epoch plus the rate times the decimal years elapsed since the epoch, zero for the degrees and orders which the file does not list, and valid for five years from the epoch; files of another form are refused; the range of the degrees given for a parsed file is the one of its coefficients.", "quantifier": "all WMM files (any lines of text), all conversions of text to numbers, all times, degrees, orders and degree bounds", "why_tests_cant": "all files and times", "anchors": ["eoxmagmod/eoxmagmod/magnetic_model/parser_wmm.py", "eoxmagmod/eoxmagmod/magnetic_model/loader_wmm.py"]}
{"id": "C57", "title": "SHC files", "statement": "Parsing an SHC file returns each coefficient with its degree and order and its time series in the order of the header times; comment and blank lines do not matter.", "quantifier": "all SHC files", "why_tests_cant": "all files", "anchors": ["eoxmagmod/eoxmagmod/magnetic_model/parser_shc.py"]}
{"id": "C58", "title": "Broadcasting of times and coordinates", "statement": "model.eval accepts times and locations whose leading dimensions match, the missing trailing dimensions being broadcast, and rejects others with ValueError.", "quantifier": "all shapes", "why_tests_cant": "all shapes of any rank", "anchors": ["eoxmagmod/eoxmagmod/magnetic_model/util.py:reshape_times_and_coordinates"]}
{"id": "C59", "title": "Evaluation stays inside of its buffers", "statement": "The C evaluation functions write only inside of the arrays they allocate.", "quantifier": "all degrees and degree ranges", "why_tests_cant": "all sizes", "anchors": ["eoxmagmod/eoxmagmod/include/spherical_harmonics.h:shc_legendre_low", "eoxmagmod/eoxmagmod/pymm_legendre.h", "eoxmagmod/eoxmagmod/pymm_fourier2d.h:_fourier2d_init"]}
{"id": "C60", "title": "Magnitude, inclination and declination", "statement": "vincdecnorm returns the magnitude and the angles from which the vector can be recovered; the inclination is within [-90, 90] and declination within (-180, 180] degrees.", "quantifier": "all non-zero vectors", "why_tests_cant": "a continuum", "anchors": ["eoxmagmod/eoxmagmod/util.py:vincdecnorm"]}
{"id": "C61", "title": "A time series evaluated at a snapshot time returns the snapshot", "statement": "A SparseSHCoefficientsTimeDependent set (spline order 1 or 2) evaluated at the time of one of its snapshots yields exactly the coefficients of that snapshot, each in its cell of the packed array.", "quantifier": "all sets with distinct times and distinct valid indices, all snapshots, all degree bounds", "why_tests_cant": "all series, permutations and degree bounds", "anchors": ["eoxmagmod/eoxmagmod/magnetic_model/coefficients.py:SparseSHCoefficientsTimeDependent.__call__"]}
{"id": "C62", "title": "A constant set has the same coefficients at all times", "statement": "SparseSHCoefficientsConstant evaluated at any time (NaN included) yields its coefficients, and its default validity is (-inf, +inf).", "quantifier": "all constant sets, all times, all degree bounds", "why_tests_cant": "all times and all sets", "anchors": ["eoxmagmod/eoxmagmod/magnetic_model/coefficients.py:SparseSHCoefficientsConstant"]}
{"id": "C63", "title": "Simplified decimal year conversions", "statement": "mjd2000_to_decimal_year_simple and decimal_year_to_mjd2000_simple are inverse to each other and strictly increasing; mjd2000_to_year_fraction_simple is the fractional part of the simplified decimal year, in [0, 1).", "quantifier": "all times", "why_tests_cant": "all times", "anchors": ["eoxmagmod/eoxmagmod/time_util.py:mjd2000_to_decimal_year_simple", "eoxmagmod/eoxmagmod/time_util.py:decimal_year_to_mjd2000_simple", "eoxmagmod/eoxmagmod/time_util.py:mjd2000_to_year_fraction_simple"]}
{"id": "C64", "title": "Potential is the spherical harmonic expansion", "statement": "The potential returned by sheval is the spherical harmonic expansion of the given coefficients up to the used degree, with Schmidt semi-normalised Legendre functions, the reference radius 6371.2 km and the radial factors of internal or external sources.", "quantifier": "all coefficient arrays of any size, all degrees, all positions in geocentric spherical coordinates, internal and external", "why_tests_cant": "The recursions are only compared with reference values for selected degrees and positions.", "anchors": ["eoxmagmod/eoxmagmod/pymm_sheval.h: _sheval_potential, _model_eval", "eoxmagmod/eoxmagmod/include/spherical_harmonics.h: shc_eval_v"]}
{"id": "C65", "title": "sheval2dfs evaluates the coefficients given by the 2D series", "statement": "sheval2dfs for a pair of times yields what sheval yields for the array of coefficients whose (n, m) coefficient is the value of the 2D Fourier series given for (n, m), and zero if none is given.", "quantifier": "all coefficient sets, times, positions, coordinate systems, modes", "why_tests_cant": "all sets, orders of the rows and times", "anchors": ["eoxmagmod/eoxmagmod/pymm_sheval2dfs.h: _sheval2dfs_update_coef, _f2d_coefset_init"]}
{"id": "C66", "title": "Composed model parameters", "statement": "The parameters of a composed model are time, location and the parameters required by its components, whatever the sequence of pushes.", "quantifier": "all sequences of pushes", "why_tests_cant": "all sequences", "anchors": ["eoxmagmod/eoxmagmod/magnetic_model/model_composed.py:ComposedGeomagneticModel.push", "eoxmagmod/eoxmagmod/magnetic_model/model_composed.py:ComposedGeomagneticModel.parameters"]}
{"id": "C67", "title": "Validity and degrees of the MIO primary model", "statement": "The validity of the MIO primary model is the intersection of the validities of its two models, its degree is the larger of the two degrees and its minimum degree the smaller of the two minimum degrees.", "quantifier": "all pairs of models and all times", "why_tests_cant": "all validities and all times", "anchors": ["eoxmagmod/eoxmagmod/magnetic_model/model_mio.py:MIOPrimaryGeomagneticModel"]}
{"id": "C68", "title": "IGRF files", "statement": "The coefficients loaded from an IGRF file are at every time linear in the decimal year between the columns of the file, behind the last column the last value plus the predicted rate times the elapsed years, zero for the degrees and orders which the file does not list, and valid from the first time to five years behind the last one; files of another form are refused.", "quantifier": "all IGRF files (any lines of text), all conversions of text to numbers, all times, degrees, orders and degree bounds", "why_tests_cant": "all files and times", "anchors": ["eoxmagmod/eoxmagmod/magnetic_model/parser_igrf.py", "eoxmagmod/eoxmagmod/magnetic_model/loader_igrf.py"]}
{"id": "C69", "title": "EMM files", "statement": "The coefficients loaded from the static and the secular variation files of the EMM are at every time the static value plus the rate times the years elapsed since the epoch, the static value where the second file has no rate, and zero for the degrees and orders which the files do not list; the validity is five years from the epoch; files of another form, and pairs of files with different epochs or different degrees and orders, are refused.", "quantifier": "all pairs of files (any lines of text), all conversions of text to numbers, all times, degrees, orders and degree bounds", "why_tests_cant": "all files and times", "anchors": ["eoxmagmod/eoxmagmod/magnetic_model/parser_emm.py", "eoxmagmod/eoxmagmod/magnetic_model/loader_emm.py"]}
{"id": "C70", "title": "Loading of the SHC files", "statement": "The coefficients loaded from a SHC file are at every time those of the file: interpolated along the line through the two columns around the time (in MJD2000, or in decimal years if the caller asks for it; the first or last two columns outside of the range), the value of the only column, and zero for the degrees and orders which the file does not list; the spline order of the header is respected. Their validity is that given by the caller, that of the header or that of the columns, without limit for a single column. Combined files give the sum of the coefficients of the files, valid when all of them are. Only files which list each coefficient once with a value for each time are loaded.", "quantifier": "all SHC files (any lines of text), all conversions of text to numbers, both time scales of the interpolation, all optional validity limits, all numbers of combined files, all times, degrees, orders and degree bounds", "why_tests_cant": "all files and times", "anchors": ["eoxmagmod/eoxmagmod/magnetic_model/loader_shc.py", "eoxmagmod/eoxmagmod/magnetic_model/coefficients.py:SparseSHCoefficientsTimeDependent", "eoxmagmod/eoxmagmod/magnetic_model/coefficients.py:SparseSHCoefficientsConstant"]}
{"id": "C71", "title": "Equatorial coordinates of the Sun", "statement": "The declination and right ascension returned by sunpos are the direction of the Sun on the ecliptic given by the published series (Grena 2012, algorithm 5) for the ecliptic longitude and the obliquity at the terrestrial time, and the hour angle is the sidereal time plus the longitude less the right ascension, up to full turns.", "quantifier": "all times within 170 million days of 2060, all places and offsets to the terrestrial time", "why_tests_cant": "a continuum", "anchors": ["eoxmagmod/eoxmagmod/include/sun_ephemeris.h:sunpos5equat", "eoxmagmod/eoxmagmod/pysunpos.h"]}
{"id": "C72", "title": "Horizontal coordinates of the Sun", "statement": "The azimuth (from the north to the east) and zenith angle returned by sunpos are those of the direction given by declination and hour angle seen from the place, apart from the correction of the zenith angle for the parallax and (original implementation, above the horizon) the refraction, and all places see the same direction at the same time.", "quantifier": "all times within 170 million days of 2060, all latitudes in [-90, 90], longitudes and radii", "why_tests_cant": "a continuum", "anchors": ["eoxmagmod/eoxmagmod/include/sun_ephemeris.h:sunpos5eq2hor", "eoxmagmod/eoxmagmod/pysunpos.h"]}
{"id": "C73", "title": "The original implementation of the solar positions", "statement": "The date used by sunpos_original is the exact MJD2000 time from 2000-03-01 to 2400-02-29 (and not beyond), and in this range it returns without pressure the same angles as sunpos (the offset to the terrestrial time is scaled by 0.9999936).", "quantifier": "all times of the range, places, radii, offsets and temperatures", "why_tests_cant": "146097 days and a continuum of places", "anchors": ["eoxmagmod/eoxmagmod/include/sun_ephemeris.h:date_to_sunposmjd2k", "eoxmagmod/eoxmagmod/include/sun_ephemeris.h:sunpos5original", "eoxmagmod/eoxmagmod/pysunpos_original.h"]}
{"id": "C74", "title": "The sub-solar point", "statement": "The sub-solar point used for the magnetic universal time is the only place at which sunpos gives (without parallax) a zenith angle of zero, and it is used unless both coordinates of the sub-solar point are given.", "quantifier": "all times within 170 million days of 2060, all places", "why_tests_cant": "a continuum", "anchors": ["eoxmagmod/eoxmagmod/magnetic_time.py:get_subsol", "eoxmagmod/eoxmagmod/magnetic_time.py:mjd2000_to_magnetic_universal_time", "eoxmagmod/eoxmagmod/solar_position.py:sunpos"]}
{"id": "C75", "title": "Arrays of solar positions", "statement": "sunpos and sunpos_original accept just the arguments which are scalars or arrays of one common shape of at most 15 dimensions; the result has that shape and each item is the solar position for the corresponding items of the arguments.", "quantifier": "all numbers and sizes of dimensions, all arguments", "why_tests_cant": "unbounded shapes", "anchors": ["eoxmagmod/eoxmagmod/pysunpos.h:pysunpos_sunpos", "eoxmagmod/eoxmagmod/pysunpos_original.h:pysunpos_sunpos_original", "eoxmagmod/eoxmagmod/pymm_aux.h:_check_equal_shape"]}
{"id": "C76", "title": "Low level functions combine to the field", "statement": "For arrays of n locations, spharpot applied to the results of legendre, relradpow and loncossin (of any degrees) and to coefficients (one set or one for each location) returns the potential of the spherical harmonic expansion at each location, up to the least of the requested degree and the degrees of the four arrays; sphargrd returns its gradient (northward, eastward, radial; eastward where the cosine of the latitude is at least 1e-10). With the reference radius 6371.2 km both return exactly what sheval returns for the same positions in geocentric spherical coordinates and this degree.", "quantifier": "all numbers of locations, locations (latitudes in [-90, 90], non-zero radii), coefficients, degrees of the arrays and of the request, reference radii, source types, both cosine/sine algorithms and any content of the allocated memory", "why_tests_cant": "unbounded numbers of locations and degrees; real-valued arguments", "anchors": ["eoxmagmod/eoxmagmod/pymm_spharpot.h:spharpot", "eoxmagmod/eoxmagmod/pymm_sphargrd.h:sphargrd", "eoxmagmod/eoxmagmod/pymm_sphar_common.h:_get_max_degree"]}
{"id": "C77", "title": "Arrays of spharpot and sphargrd", "statement": "spharpot and sphargrd accept just the arrays whose dimensions (without those of the items) are leading dimensions of one of them; the output has this largest shape and each item is the result of a separate call for the items of the arrays at its multi-index.", "quantifier": "all shapes of the five or six arrays, all contents and degrees", "why_tests_cant": "unbounded shapes", "anchors": ["eoxmagmod/eoxmagmod/pymm_spharpot.h:_spharpot", "eoxmagmod/eoxmagmod/pymm_sphargrd.h:_sphargrd", "eoxmagmod/eoxmagmod/pymm_sphar_common.h:_extract_common_shape"]}
{"id": "C78", "title": "MIO file parser", "statement": "parse_swarm_mio_file returns exactly the numbers of a Swarm MIO_SHA_2* file: the header items, the latitude 90 - theta and the longitude of the pole in (-180, 180] congruent to phi, one pair (degree, order) and one external and one internal 2D series for each row pair, in the order of the file, with the pair of the seasonal degree s and diurnal degree p at the position (s - smin)(pmax - pmin + 1) + (p - pmin); a file of any other structure is refused.", "quantifier": "all files (lists of lines of ASCII text) and all number conversions", "why_tests_cant": "unbounded set of files", "anchors": ["eoxmagmod/eoxmagmod/magnetic_model/parser_mio.py:parse_swarm_mio_file", "eoxmagmod/eoxmagmod/magnetic_model/parser_mio.py:parse_swarm_mio_coefficients", "eoxmagmod/eoxmagmod/magnetic_model/parser_mio.py:parse_swarm_mio_header"]}
{"id": "C79", "title": "MIO models loaded from files", "statement": "load_model_swarm_mio_internal and load_model_swarm_mio_external load any file of the format: the models have the pole and the Wolf ratio of the header; the coefficient of each (degree, order) is the 2D Fourier series of its row, the sum over the seasonal degrees s and the diurnal degrees p of a cos(2 pi (s season + p mut/24)) + b sin(2 pi (s season + p mut/24)) of the fraction of the year and the magnetic universal time in hours; the external model above the ionosphere has it multiplied by -n/(n+1) (1 + height/6371.2)^(2n+1).", "quantifier": "all files of the format, all times, all degrees and orders", "why_tests_cant": "unbounded set of files and real-valued times", "anchors": ["eoxmagmod/eoxmagmod/magnetic_model/loader_mio.py:load_model_swarm_mio_internal", "eoxmagmod/eoxmagmod/magnetic_model/loader_mio.py:load_model_swarm_mio_external", "eoxmagmod/eoxmagmod/magnetic_model/coefficients_mio.py:SparseSHCoefficientsMIO"]}
{"id": "C80", "title": "MMA models merged from files", "statement": "The loaders of the Swarm MMA products accept one or more files given in the order of their times; the coefficients at any time are on the line through the values at the neighbouring times of all of the files (times in days since 2000), the validity is from the first to the last time; the two sets of the 2C products are merged separately and summed, valid when both are; files of different degrees and orders or in the wrong order are refused.", "quantifier": "all numbers of files, times, degrees and orders, all coefficients and all evaluation times", "why_tests_cant": "unbounded numbers of files and times; real-valued times", "anchors": ["eoxmagmod/eoxmagmod/magnetic_model/loader_mma.py:_merge_coefficients", "eoxmagmod/eoxmagmod/magnetic_model/loader_mma.py:_load_coeff_mma_multi_set", "eoxmagmod/eoxmagmod/magnetic_model/parser_mma.py:read_swarm_mma_coefficients", "eoxmagmod/eoxmagmod/magnetic_model/parser_mma.py:_cdf_rawtime_to_mjd2000"]}
{"id": "C81", "title": "Decimal year of datetime objects", "statement": "datetime_to_decimal_year returns for a datetime object a number of its year, whole only at the start of the year, increasing with the time and equal to the value of mjd2000_to_decimal_year for the same date and time of day; other objects and times with a time zone raise TypeError.", "quantifier": "all datetime objects", "why_tests_cant": "more than 10^17 datetime objects; the order of any two of them", "anchors": ["eoxmagmod/eoxmagmod/time_util.py:datetime_to_decimal_year", "eoxmagmod/eoxmagmod/include/time_conversion.h:mjd2k_to_decimal_year"]}
{"id": "C82", "title": "Sub-solar point of the quasi-dipole library", "statement": "eval_subsol returns for each time the latitude (-90..90) and longitude (-180..180) of the point over which the Sun stands at that time, by the low precision formulas of the Astronomical Almanac, for the years 1601 to 2100; for other times the calculation stops.", "quantifier": "all arrays of times (MJD2000)", "why_tests_cant": "a continuum of times over five centuries; the errors depend on the sign and the fraction of the time", "anchors": ["qdipole/eval_subsol.f90:eval_subsol", "qdipole/apex.f90:SUBSOL", "qdipole/apex.f90:TMJD", "qdipole/apex.f90:TJUDA", "eoxmagmod/eoxmagmod/quasi_dipole_coordinates.py:eval_subsol"]}
{"id": "C83", "title": "Magnetic local time", "statement": "eval_mlt returns for each quasi-dipole longitude and time the magnetic local time: 12 hours plus a fifteenth of the difference in degrees of the longitude and the dipole longitude of the sub-solar point of that time, with the dipole pole of the IGRF at that time, as an hour of the day (0 to 24); the result depends only on that longitude and time, not on the other points or on earlier calls; it is available from 1900 to 2100.", "quantifier": "all sequences of calls and all arrays of longitudes and times", "why_tests_cant": "the routine keeps state within a call and between the calls; unboundedly many histories", "anchors": ["qdipole/eval_mlt.f90:eval_mlt", "qdipole/apex.f90:COFRM", "qdipole/apex.f90:DYPOL", "qdipole/apex.f90:MAGLOCTM", "qdipole/apex.f90:SOLGMLON", "eoxmagmod/eoxmagmod/quasi_dipole_coordinates.py:eval_mlt"]}
{"id": "C84", "title": "Quasi-dipole coordinates", "statement": "eval_qdlatlon and eval_qdlatlon_with_base_vectors return for each point the quasi-dipole latitude (-90..90) and longitude (-180..180): the direction of the vector given by the expansion of the coefficient file in the powers of R/(R+h) and in the spherical harmonics of the geodetic position, with the coefficients interpolated linearly to the time of the point; a file which cannot be read is reported.", "quantifier": "all coefficient files, all arrays of positions and times, all sequences of earlier calls", "why_tests_cant": "a continuum of positions, times and coefficients; the routines keep the coefficients between the points and the calls", "anchors": ["qdipole/eval_qdlatlon.f90:eval_qdlatlon", "qdipole/eval_qdlatlon.f90:eval_qdlatlonvb", "qdipole/apexsh.f90:loadapxsh", "qdipole/apexsh.f90:apxg2q", "qdipole/apexsh.f90:shcalc", "qdipole/apexsh.f90:alfbasis", "qdipole/apex.f90:CONVRT", "eoxmagmod/eoxmagmod/quasi_dipole_coordinates.py:eval_qdlatlon"]}
{"id": "C85", "title": "Quasi-dipole base vectors", "statement": "eval_qdlatlon_with_base_vectors returns the east and north components of the base vectors F1 and F2 of Richmond: (R+h) times the horizontal gradients of the quasi-dipole latitude and of the quasi-dipole longitude (with the cosine of the latitude), turned by a right angle, on the ellipsoid; F is the product F1 x F2.", "quantifier": "all coefficient files, all positions outside of the geographic and magnetic poles, all times", "why_tests_cant": "a derivative at every point of a continuum; a check at a few points cannot tell an approximate factor", "anchors": ["qdipole/eval_qdlatlon.f90:eval_qdlatlonvb", "qdipole/apexsh.f90:apxg2q", "qdipole/apexsh.f90:shcalc", "eoxmagmod/eoxmagmod/quasi_dipole_coordinates.py:eval_qdlatlon_with_base_vectors"]}
{"id": "C86", "title": "Quasi-dipole coordinates: no dependence on the history", "statement": "The results of eval_qdlatlon and eval_qdlatlon_with_base_vectors depend only on the arguments and on the content of the file at the time of the call, not on the calls made before in the process nor on uninitialised memory.", "quantifier": "all sequences of calls with any files, all initial contents of the memory, all arrays", "why_tests_cant": "unboundedly many histories; the contents of uninitialised memory cannot be enumerated", "anchors": ["qdipole/eval_qdlatlon.f90:eval_qdlatlon", "qdipole/apexsh.f90:loadapxsh", "qdipole/apexsh.f90:apxg2q", "eoxmagmod/eoxmagmod/quasi_dipole_coordinates.py:eval_qdlatlon"]}
{"id": "C87", "title": "Quasi-dipole functions of Python", "statement": "eval_qdlatlon, eval_qdlatlon_with_base_vectors, eval_subsol and eval_mlt accept numbers and one-dimensional arrays and return arrays of the same shape whose every element is the value for the element of the inputs at the same position. A missing coefficient file raises IOError, a too long file name RuntimeError, and arrays of more dimensions or of different shapes ValueError, before the library is called.", "quantifier": "all arrays of all sizes, all file names and files, all sequences of calls made before, all contents of newly allocated memory", "why_tests_cant": "unboundedly many sizes, shapes and histories; the failing sizes are larger than any test array; uninitialised memory cannot be enumerated", "anchors": ["eoxmagmod/eoxmagmod/quasi_dipole_coordinates.py:eval_qdlatlon", "eoxmagmod/eoxmagmod/quasi_dipole_coordinates.py:eval_qdlatlon_with_base_vectors", "eoxmagmod/eoxmagmod/pyqd_eval_qdlatlon.h:eval_qdlatlon", "eoxmagmod/eoxmagmod/pyqd_eval_mlt.h:eval_mlt", "eoxmagmod/eoxmagmod/pyqd_eval_subsol.h:eval_subsol", "qdipole/cqdipole.c:c_eval_qdlatlon"]}
{"id": "C88", "title": "Conversions of arrays with any memory layout", "statement": "convert, vrot_sph2geod, vrot_sph2cart, vrot_cart2sph and the time conversions return, for arrays of any number of dimensions and any strides (transposed, reversed or overlapping views), a new array of the same shape whose every element is the conversion of the element of the input at the same index; they read and write nothing outside of the arrays and leave the inputs unchanged. Wrong shapes and coordinate types raise ValueError.", "quantifier": "all shapes, all strides and addresses, all contents of the memory", "why_tests_cant": "unboundedly many layouts; a wrong address may go unnoticed in the run of a test", "anchors": ["eoxmagmod/eoxmagmod/pymm_aux.h:_get_arrd_item", "eoxmagmod/eoxmagmod/pymm_cconv.h:convert", "eoxmagmod/eoxmagmod/pymm_vrot_sph2geod.h:vrot_sph2geod", "eoxmagmod/eoxmagmod/pymm_vrot_sph2cart.h:vrot_sph2cart", "eoxmagmod/eoxmagmod/pymm_vrot_cart2sph.h:vrot_cart2sph", "eoxmagmod/eoxmagmod/pytimeconv_mjd2000_to_decimal_year.h:mjd2000_to_decimal_year"]}
{"id": "C89", "title": "Evaluation of the models for arrays with any memory layout", "statement": "sheval, shevaltemp and sheval2dfs return, for arrays of positions and times of any number of dimensions and any strides (transposed, reversed or overlapping views), new arrays of the potentials and gradients whose every element is the result for the position, the time and the coefficients at the same index; they read and write nothing outside of the arrays and leave the inputs unchanged. Wrong shapes, modes and coordinate types raise ValueError.", "quantifier": "all shapes, all strides and addresses, all contents of the memory, all modes, all coefficients", "why_tests_cant": "unboundedly many layouts; a wrong address reads some other number of the array and may go unnoticed in the run of a test", "anchors": ["eoxmagmod/eoxmagmod/pymm_sheval.h:sheval", "eoxmagmod/eoxmagmod/pymm_shevaltemp.h:shevaltemp", "eoxmagmod/eoxmagmod/pymm_sheval2dfs.h:sheval2dfs", "eoxmagmod/eoxmagmod/pymm_aux.h:_extract_1d_double_array"]}
{"id": "C90", "title": "Time conversions in double precision", "statement": "In IEEE double precision mjd2000_to_decimal_year does not decrease with time, stays between the calendar year and the next year, is exact at the year starts, and its error is bounded by half a unit in the last place plus 2^-51 years; decimal_year_to_mjd2000 is exact for whole years and its error bounded likewise; both round trips return the input up to a few microseconds for the years 1 to 2046 (outside of the gap of 1582). The hours of a date are within 0 and 24. The simplified conversions do not decrease and are exact for whole years.", "quantifier": "all times and decimal years in the range of the calendar formulas (doubles or real), all ranges of years for the error bounds", "why_tests_cant": "rounding errors depend on every bit of the input; tests sample a few times and compare with tolerances", "anchors": ["eoxmagmod/eoxmagmod/include/time_conversion.h: mjd2k_to_decimal_year, mjd2k_to_year_fraction, decimal_year_to_mjd2k, mjd2k_to_date", "eoxmagmod/eoxmagmod/time_util.py"]}
{"id": "C91", "title": "Interpolation in double precision", "statement": "In IEEE double precision the piecewise linear interpolation of a time series returns exactly the given value at every node, including the last one; between nodes and extrapolated it differs from the straight line by a relative rounding error of a few units in the last place of the neighbouring values; the derivative kind differs from the slope likewise; the constant kind has no rounding error; outside of the nodes the result is NaN unless extrapolation is requested.", "quantifier": "all strictly increasing series of doubles with at least two nodes, all double values, all double times", "why_tests_cant": "the weights are rounded quotients, whether they are exactly 0 and 1 at the nodes and how large the error is in between must hold for all bit patterns", "anchors": ["eoxmagmod/eoxmagmod/include/interpolation.h: get_interp1_basis, get_interp1d1_basis, interp1_eval", "eoxmagmod/eoxmagmod/pymm_interp.h: interp"]}
{"id": "C92", "title": "Resources and failures of the C extension functions", "statement": "Every call of a function of the C extensions returns exactly one new reference or raises an exception (never both, never neither), releases every other reference and buffer it has acquired, and never dereferences, uses or releases a NULL or an already released object, whichever of its steps (argument parsing, conversion, argument checks, allocations, construction of the result) fail; no failure is silent.", "quantifier": "all functions of the modules _pymm, _pyqd, _pysunpos and _pytimeconv, all modes and optional arguments, any number of coefficient sets, every combination of failing steps", "why_tests_cant": "allocation failures cannot be provoked one by one from Python tests, and leaks and double releases are not observable by comparing values", "anchors": ["eoxmagmod/eoxmagmod/pymm_*.h", "eoxmagmod/eoxmagmod/pyqd_*.h", "eoxmagmod/eoxmagmod/pysunpos*.h", "eoxmagmod/eoxmagmod/pytimeconv_*.h", "eoxmagmod/eoxmagmod/pymm_aux.h"]}
{"id": "C93", "title": "Memory layout of the item-by-item functions", "statement": "bisect, interp, legendre, relradpow, loncossin, spharpot, sphargrd, fourier2d, sunpos and sunpos_original accept arrays of any number of dimensions in any memory layout (strided, reversed, broadcast) and return new contiguous arrays of the documented shape, each element of which is the value of the function for the corresponding items of the arguments; no other memory is read beyond the arguments or changed, and the initial contents of the allocated memory have no effect.  Wrong options and incompatible shapes raise a ValueError.", "quantifier": "all arrays of any number of dimensions, all strides and addresses, all contents of the memory, all options", "why_tests_cant": "tests use a few shapes and layouts and do not see reads and writes outside of the arrays", "anchors": ["eoxmagmod/eoxmagmod/pymm_bisect.h", "eoxmagmod/eoxmagmod/pymm_interp.h", "eoxmagmod/eoxmagmod/pymm_legendre.h", "eoxmagmod/eoxmagmod/pymm_relradpow.h", "eoxmagmod/eoxmagmod/pymm_loncossin.h", "eoxmagmod/eoxmagmod/pymm_spharpot.h", "eoxmagmod/eoxmagmod/pymm_sphargrd.h", "eoxmagmod/eoxmagmod/pymm_fourier2d.h", "eoxmagmod/eoxmagmod/pysunpos.h", "eoxmagmod/eoxmagmod/pysunpos_original.h", "eoxmagmod/eoxmagmod/pymm_aux.h"]}
{"id": "C94", "title": "Arithmetic of the 32-bit integers", "statement": "The C code calculates degrees, indices and sizes with integers of 32 bits: for every degree accepted by the API, none of these calculations overflows, so that legendre, relradpow, sheval, shevaltemp and sheval2dfs return the same values as with unbounded integers, allocate the memory for their data and write each coefficient to its own row.", "quantifier": "all degrees, latitudes, radii, positions, coefficient arrays and all behaviours of an overflow", "why_tests_cant": "An overflow needs degrees which no test uses (memory of gigabytes), and its effect depends on the compiler; a test shows one compiler and one degree.", "anchors": ["/repo/eoxmagmod/eoxmagmod/include/spherical_harmonics.h: shc_legendre_low, shc_legendre_high, shc_presqrt, shc_prersqrt, shc_relradpow_internal, shc_relradpow_external", "/repo/eoxmagmod/eoxmagmod/pymm_sheval.h: _sheval_model_init", "/repo/eoxmagmod/eoxmagmod/pymm_legendre.h: legendre", "/repo/eoxmagmod/eoxmagmod/pymm_shevaltemp.h", "/repo/eoxmagmod/eoxmagmod/pymm_sheval2dfs.h"]}
{"id": "C95", "title": "Refusal of wrong arguments by the extension functions", "statement": "Each function of the C extension (bisect, interp, legendre, relradpow, loncossin, spharpot, sphargrd, fourier2d, sunpos, sunpos_original, convert, the vector rotations, the time conversions, sheval, shevaltemp and sheval2dfs) raises ValueError exactly when a code (coordinate type, mode, kind, side), a degree, the reference radius, the number of dimensions or the shapes of the arrays are not the documented ones, whatever their contents and layout are; every other call is carried out, and a refused call changes nothing.", "quantifier": "all integer codes and degrees, all numbers of dimensions and shapes of the arrays, all contents of the memory", "why_tests_cant": "tests try a few wrong shapes of a few functions; the claim is that there is no wrong combination which passes and no correct one which is refused", "anchors": ["eoxmagmod/eoxmagmod/pymm_sphar_common.h:_compare_dimensions", "eoxmagmod/eoxmagmod/pymm_aux.h:_check_array_dim_eq", "eoxmagmod/eoxmagmod/pymm_vrot_common.h:_vrot_arr_check", "eoxmagmod/eoxmagmod/pymm_sheval.h:sheval", "eoxmagmod/eoxmagmod/pymm_shevaltemp.h:shevaltemp", "eoxmagmod/eoxmagmod/pymm_sheval2dfs.h:sheval2dfs", "eoxmagmod/eoxmagmod/pymm_interp.h:interp", "eoxmagmod/eoxmagmod/pysunpos.h:sunpos"]}
{"id": "C96", "title": "Calls of the extension functions by position and by name", "statement": "Each function of the extension modules takes the documented arguments, in the documented order, by position or by the documented name, with the documented defaults: a call receives exactly the passed and default values, and a call with a missing, repeated, surplus or unknown argument raises TypeError; an argument which cannot be converted raises the exception of its conversion. Passing an argument by position or by name, and the order of the keywords, make no difference.", "quantifier": "all functions of the modules, all lists of positional and keyword arguments, all Python objects", "why_tests_cant": "tests call the functions in a few of the unboundedly many ways, never with objects whose conversion raises; the names in the documentation are not tested at all", "anchors": ["eoxmagmod/eoxmagmod/pymm_sheval.h:sheval", "eoxmagmod/eoxmagmod/pymm_interp.h:interp", "eoxmagmod/eoxmagmod/pymm_spharpot.h:spharpot", "eoxmagmod/eoxmagmod/pymm_fourier2d.h:fourier2d", "eoxmagmod/eoxmagmod/pytimeconv.h", "eoxmagmod/eoxmagmod/pyqd.c:eval_qdlatlon", "eoxmagmod/eoxmagmod/pymm.c"]}
{"id": "C97", "title": "Accepted lists and tuples of coefficients", "statement": "shevaltemp accepts exactly the lists of 1 to 16 tuples of three loadable arrays and a spline order which is an int equal to 1 or 2; otherwise it raises the exception of the first wrong tuple (ValueError, OverflowError for an order beyond 64 bits, or the one of the arrays). sheval2dfs accepts exactly the tuples of two loadable arrays, two 64-bit ints and two floats. A spline order accepted by the constructor of the time dependent coefficients is accepted by their evaluation.", "quantifier": "all Python objects passed as coefficients, all lengths of the lists and tuples, all integers", "why_tests_cant": "there are unboundedly many malformed objects; tests pass well-formed ones", "anchors": ["eoxmagmod/eoxmagmod/pymm_shevaltemp.h:_parse_coef_set_list", "eoxmagmod/eoxmagmod/pymm_sheval2dfs.h:_f2d_coefset_parse", "eoxmagmod/eoxmagmod/pymm_aux.h:_parse_long_value", "eoxmagmod/eoxmagmod/magnetic_model/coefficients.py:SparseSHCoefficientsTimeDependent.__init__"]}
{"id": "C98", "title": "From a SHC file to the field", "statement": "A model loaded by load_model_shc from a well-formed SHC file evaluates, at each time within its validity and each spherical location, to minus the gradient of the spherical harmonic potential with the reference radius 6371.2 km whose coefficients are those of the file (interpolated between the columns, limited to the requested degrees). Outside of the validity and for NaN times the result is a vector of NaNs. This holds for scalar times with any array of locations and for arrays of times, element by element.", "quantifier": "all well-formed SHC files, interpolation in MJD2000 or decimal years, validity arguments, degree limits, arrays of times and locations", "why_tests_cant": "tests compare a few published models at a few points with reference values; the claim ranges over all files, times and locations", "anchors": ["eoxmagmod/eoxmagmod/magnetic_model/loader_shc.py:load_model_shc", "eoxmagmod/eoxmagmod/magnetic_model/model.py:SphericalHarmomicGeomagneticModel.eval", "eoxmagmod/eoxmagmod/magnetic_model/coefficients.py:SparseSHCoefficientsTimeDependent"]}
{"id": "C99", "title": "From WMM, IGRF and EMM files to the field", "statement": "A model loaded by load_model_wmm, load_model_igrf or load_model_emm from well-formed files evaluates, at each time within its validity and each spherical location, to minus the gradient of the spherical harmonic potential with the reference radius 6371.2 km whose coefficients are those of the files at the decimal year of the time: the values of the epoch plus the rates times the elapsed years (WMM, EMM), the values interpolated between the columns or predicted behind the last one (IGRF). Outside of the validity and for NaN times the result is a vector of NaNs. The two coefficient sets of the EMM are summed.", "quantifier": "all well-formed WMM, IGRF and EMM files, degree limits, times and locations, scalar or arrays", "why_tests_cant": "tests compare the published models at a few points with reference values; the claim ranges over all files, times and locations", "anchors": ["eoxmagmod/eoxmagmod/magnetic_model/loader_wmm.py:load_model_wmm", "eoxmagmod/eoxmagmod/magnetic_model/loader_igrf.py:load_model_igrf", "eoxmagmod/eoxmagmod/magnetic_model/loader_emm.py:load_model_emm", "eoxmagmod/eoxmagmod/magnetic_model/model.py:SphericalHarmomicGeomagneticModel.eval"]}
{"id": "C100", "title": "The field of composed and combined SHC files", "statement": "A model loaded by load_model_shc from several SHC files (composed) evaluates at each time to the field of one file which is valid at that time, and to NaN where no file is valid. A model loaded by load_model_shc_combined evaluates, where all of the files are valid, to the field with the sum of the coefficients of the files, otherwise to NaN.", "quantifier": "all lists of well-formed SHC files, interpolation in MJD2000 or decimal years, validity arguments, degree limits, times and locations, scalar or arrays", "why_tests_cant": "tests compose or combine a few published files; the claim ranges over all files, overlaps of the validities, times and locations", "anchors": ["eoxmagmod/eoxmagmod/magnetic_model/loader_shc.py:load_model_shc", "eoxmagmod/eoxmagmod/magnetic_model/loader_shc.py:load_model_shc_combined", "eoxmagmod/eoxmagmod/magnetic_model/coefficients.py:ComposedSHCoefficients.decompose", "eoxmagmod/eoxmagmod/magnetic_model/coefficients.py:CombinedSHCoefficients.decompose", "eoxmagmod/eoxmagmod/magnetic_model/model.py:SphericalHarmomicGeomagneticModel.eval"]}
{"id": "C101", "title": "The field of the MMA models", "statement": "A model loaded by the load_model_swarm_mma_2f_* functions from files which join one another evaluates, from the first to the last time of the files, to minus the gradient of the potential with the coefficients interpolated linearly between the neighbouring times of the files, and to NaN at other times. A model loaded by the load_model_swarm_mma_2c_* functions evaluates, at the times common to both sets of coefficients, to the field with the coefficients of both sets in the dipole frame, rotated back to the geographic frame, in the requested coordinate system and scaled, and to NaN at other times.", "quantifier": "all lists of MMA files with consistent indices of coefficients, all poles, degree limits, scales, input and output coordinate systems (2C), times and locations, scalar or arrays", "why_tests_cant": "tests evaluate a few published products at sampled times and locations; the claim ranges over all files, times (also between two files), locations and poles", "anchors": ["eoxmagmod/eoxmagmod/magnetic_model/loader_mma.py:load_model_swarm_mma_2c_internal", "eoxmagmod/eoxmagmod/magnetic_model/loader_mma.py:load_model_swarm_mma_2f_geo_internal", "eoxmagmod/eoxmagmod/magnetic_model/coefficients.py:CombinedSHCoefficients.decompose", "eoxmagmod/eoxmagmod/magnetic_model/model.py:DipoleSphericalHarmomicGeomagneticModel.eval"]}
{"id": "C102", "title": "The field in all coordinate systems", "statement": "The result of the eval method of a model does not depend on the coordinate systems used for the locations and for the results, except for its representation: for each location off the centre of the Earth the result in the output coordinate system, before the scale, is the same vector in space as that which the model gives for the spherical coordinates of the location, a NaN for a NaN and the same failure for a failure, and it is multiplied afterwards, component by component, by the scale. Models loaded from WMM, IGRF, EMM, SHC and MMA files (geographic frame) thus evaluate in all coordinate systems to minus the gradient of the potential with the coefficients of the files.", "quantifier": "all models, pairs of input and output coordinate systems, scales, degree limits, times and locations, scalar or arrays", "why_tests_cant": "tests compare the nine combinations of coordinate systems at sampled points with a reference implementation; the claim ranges over all models, locations and times", "anchors": ["eoxmagmod/eoxmagmod/magnetic_model/model.py:SphericalHarmomicGeomagneticModel.eval", "eoxmagmod/eoxmagmod/pymm_shevaltemp.h", "eoxmagmod/eoxmagmod/pymm_sheval.h"]}
{"id": "C103", "title": "From MIO files to the field", "statement": "A model loaded from a well-formed MIO file by load_model_swarm_mio_internal evaluates, at each valid time, to minus the gradient of the internal potential whose coefficients are the values of the 2D Fourier series of the internal rows of the file for the fraction of the year and the magnetic universal time, in the dipole frame of the file, rotated back to the geographic frame, in the requested coordinate system, multiplied by 1 + W F10.7 (W is the Wolf ratio of the file) and by the scale. A model loaded by load_model_swarm_mio_external evaluates, up to the height of the ionosphere given by the file, to the same with the external potential of the external rows, and above it to the same with the internal potential of the external rows multiplied by -n/(n+1) (1 + height/6371.2)^(2n+1). For times which are NaN or not valid and for a NaN F10.7 the result is a vector of NaNs.", "quantifier": "all well-formed MIO files with distinct degrees and orders, times, locations, coordinate systems, scales, F10.7 indices and sub-solar points, scalar or arrays", "why_tests_cant": "tests compare one published model at a few points with reference values; the claim ranges over all files, times and locations", "anchors": ["eoxmagmod/eoxmagmod/magnetic_model/loader_mio.py:load_model_swarm_mio_internal", "eoxmagmod/eoxmagmod/magnetic_model/loader_mio.py:load_model_swarm_mio_external", "eoxmagmod/eoxmagmod/magnetic_model/model_mio.py:DipoleMIOGeomagneticModel.eval", "eoxmagmod/eoxmagmod/magnetic_model/model_mio.py:MIOPrimaryGeomagneticModel.eval"]}
{"id": "C104", "title": "The field is a function of the position", "statement": "Whatever coordinates of a point are passed to the evaluation of a spherical harmonic expansion - spherical, geodetic or Cartesian, with longitudes which differ by full circles, with any longitude at the poles - the potential is the same and the gradient is the same vector in space, in whatever coordinate systems it is requested. Latitudes beyond -90 and 90 degrees are not brought back to the range by the code: there the result is not that of the point.", "quantifier": "all pairs of coordinates of the same point in any two input systems, all output systems, coefficients, degrees, sources", "why_tests_cant": "The coordinates of a point, the coefficients and the degrees are unbounded; a test compares some pairs of points away from the poles only, and the poles need the cancellation of all the terms which depend on the longitude.", "anchors": ["eoxmagmod/eoxmagmod/pymm_sheval.h:sheval", "eoxmagmod/eoxmagmod/include/spherical_harmonics.h:shc_eval_dv", "eoxmagmod/eoxmagmod/include/spherical_harmonics.h:shc_eval_dvaz_pole", "eoxmagmod/eoxmagmod/include/geo_conversion.h:geodetic2geocentric_sph"]}
{"id": "C105", "title": "Composing and combining keep the sets", "statement": "Coefficient sets can be composed and combined in any sequence, with any nesting and with one set used in many others: every set made can be evaluated, at one time and at arrays of times, with the values of the tree of sets it was made of, and the sets it was made of keep their values, validity and degrees. In particular ComposedSHCoefficients(c) and CombinedSHCoefficients(c) of a single set c are c.", "quantifier": "all programs which make sparse, composed and combined sets of earlier ones; all times, arrays of times and recursion limits", "why_tests_cant": "The number of programs, of nested sets and of ways to share them is unbounded; the sets are Python objects with references to each other, so each constructor call could change objects made before.", "anchors": ["eoxmagmod/eoxmagmod/magnetic_model/coefficients.py:ComposedSHCoefficients.__new__", "eoxmagmod/eoxmagmod/magnetic_model/coefficients.py:ComposedSHCoefficients.__init__", "eoxmagmod/eoxmagmod/magnetic_model/coefficients.py:CombinedSHCoefficients.__new__", "eoxmagmod/eoxmagmod/magnetic_model/coefficients.py:CombinedSHCoefficients.__init__", "eoxmagmod/eoxmagmod/magnetic_model/loader_shc.py:load_coeff_shc_composed"]}
{"id": "C106", "title": "Size of the functions and truncation error", "statement": "The squares of the Legendre functions of each degree sum up to one at every latitude, so no function is larger than one and the functions of the order m decrease at least as cos(latitude)^m to the poles. The potentials of one set of coefficients evaluated up to two degrees N < M differ at most by 6371.2 km times the sum, over the degrees n between, of (6371.2 km/r)^(n+1) - for external sources (r/6371.2 km)^n - times the square root of the sum of the squares of the coefficients of the degree. The fields differ at most by the sum of (n+1)*(6371.2 km/r)^(n+2) - for external sources n*(r/6371.2 km)^(n-1) - times the same square roots, at all latitudes, the poles included, and no field is larger than the sum over all its degrees. So do the fields returned by the models loaded from SHC, WMM, IGRF and EMM files for two maximum degrees, with the coefficients of the files at the time, and NaNs are returned for the same times. The bounds of the potential and the field hold for positions and results in all coordinate systems, with the radius of the point.", "quantifier": "all latitudes, longitudes, radii, coefficients, degrees, both kinds of sources", "why_tests_cant": "An inequality for all positions, degrees and coefficients; tests evaluate some of them.", "anchors": ["eoxmagmod/eoxmagmod/pymm_legendre.h:legendre", "eoxmagmod/eoxmagmod/pymm_sheval.h:sheval", "eoxmagmod/eoxmagmod/include/spherical_harmonics.h:shc_eval_v", "eoxmagmod/eoxmagmod/magnetic_model/model.py:SphericalHarmomicGeomagneticModel", "eoxmagmod/eoxmagmod/magnetic_model/coefficients.py:SparseSHCoefficients"]}
{"id": "C107", "title": "Decay of the field with the distance", "statement": "The gradient of internal sources without a monopole at the radius r is at most as long as (r0/r)^3 times the bound of C106 at any smaller radius r0, at all latitudes, longitudes and for all degrees; that of external sources is at most as long as the bound at any larger radius. The fields of WMM, IGRF, EMM and SHC files without coefficients of degree 0 decay this way. The bounds of the evaluated gradient hold for positions and results in all coordinate systems.", "quantifier": "all positions, pairs of radii, coefficients, degrees, coefficient files, times and bounds of the degrees", "why_tests_cant": "An inequality for all positions and coefficients; tests evaluate some of them.", "anchors": ["eoxmagmod/eoxmagmod/pymm_sheval.h:sheval", "eoxmagmod/eoxmagmod/include/spherical_harmonics.h:shc_eval_v", "eoxmagmod/eoxmagmod/include/spherical_harmonics.h:shc_relradpow_internal", "eoxmagmod/eoxmagmod/magnetic_model/loader_wmm.py:load_coeff_wmm"]}
{"id": "C108", "title": "Change of the field with the coefficients and the time", "statement": "The fields of two sets of coefficients at one position differ at most by the bound of C106 evaluated for the differences of the coefficients. The fields of a WMM file at two valid times differ at most by the number of decimal years in between times the bound evaluated for the secular variation of the file. The bound of the change with the coefficients holds for positions and results in all coordinate systems. The fields of an IGRF file at two times between the same two epochs of the file, or both after the last one, and those of an EMM model at two times, differ at most by the years in between times the bound for the rates of the file. So do those of a SHC file at two times between the same two columns, or both before the first or after the last column, with the slopes between the columns in the time scale of the interpolation.", "quantifier": "all positions, pairs of sets of coefficients, degrees, both kinds of sources; all WMM, IGRF, EMM and SHC files, pairs of times and bounds of the degrees", "why_tests_cant": "An inequality for all positions, coefficients and times; tests evaluate some of them.", "anchors": ["eoxmagmod/eoxmagmod/pymm_sheval.h:sheval", "eoxmagmod/eoxmagmod/include/spherical_harmonics.h:shc_eval_v", "eoxmagmod/eoxmagmod/magnetic_model/loader_wmm.py:load_coeff_wmm", "eoxmagmod/eoxmagmod/magnetic_model/loader_igrf.py:load_coeff_igrf", "eoxmagmod/eoxmagmod/magnetic_model/loader_emm.py:load_coeff_emm", "eoxmagmod/eoxmagmod/magnetic_model/loader_shc.py:load_coeff_shc", "eoxmagmod/eoxmagmod/magnetic_model/model.py:SphericalHarmomicGeomagneticModel"]}
