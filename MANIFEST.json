{
 "claims": [
  {
   "property": "C01",
   "status": "proved",
   "theorems": [
    "C01_overlap_removal_ordered"
   ],
   "note": ""
  },
  {
   "property": "C02",
   "status": "proved",
   "theorems": [
    "C02_overlap_removal_first_wins"
   ],
   "note": ""
  },
  {
   "property": "C03",
   "status": "proved",
   "theorems": [
    "C03_aggregation_is_intersection",
    "C03_aggregation_of_one"
   ],
   "note": ""
  },
  {
   "property": "C04",
   "status": "proved",
   "theorems": [
    "C04_accepted_is_covered",
    "C04_validity_is_hull",
    "C04_gap_is_rejected"
   ],
   "note": ""
  },
  {
   "property": "C05",
   "status": "partial",
   "theorems": [
    "C05_gapfree_accepted_refuted",
    "C05_gapfree_accepted_partial"
   ],
   "note": "False of the code for nested validity ranges (C05_gapfree_accepted_refuted); proved for items without nesting."
  },
  {
   "property": "C06",
   "status": "proved",
   "theorems": [
    "C06_array_call_is_scalar_call",
    "C06_scalar_call_first_valid",
    "C06_scalar_call_none_valid"
   ],
   "note": ""
  },
  {
   "property": "C07",
   "status": "proved",
   "theorems": [
    "C07_combined_is_sum",
    "C07_combined_order_independent",
    "C07_combined_flattens"
   ],
   "note": ""
  },
  {
   "property": "C08",
   "status": "proved",
   "theorems": [
    "C08_combined_validity",
    "C08_composed_validity",
    "C08_mixed_rejected",
    "C08_order_independent"
   ],
   "note": ""
  },
  {
   "property": "C09",
   "status": "partial",
   "theorems": [
    "C09_scalar_is_array_refuted",
    "C09_scalar_is_array_partial",
    "C09_agree_if_consistent_partial"
   ],
   "note": "Refuted at instants shared by two components (first match vs last match); proved for all other times of trees with ordered composed sets."
  },
  {
   "property": "C10",
   "status": "proved",
   "theorems": [
    "C10_scalar_nan",
    "C10_scalar_value",
    "C10_array_nan",
    "C10_array_value",
    "C10_array_shape",
    "C10_tree_scalar_nan",
    "C10_tree_array_nan"
   ],
   "note": ""
  },
  {
   "property": "C11",
   "status": "partial",
   "theorems": [
    "C11_decompose_covers",
    "C11_decompose_preserves_refuted",
    "C11_decompose_preserves_partial",
    "C11_decompose_unique_partial",
    "C11_decompose_flat",
    "C11_model_value_partial"
   ],
   "note": "Coverage is proved for all instants. Equality of the coefficients is refuted at ends of validity ranges of nested trees, proved for all other instants and, for composed sets made of plain coefficients, for all instants."
  },
  {
   "property": "C12",
   "status": "proved",
   "theorems": [
    "C12_degree_subset"
   ],
   "note": ""
  },
  {
   "property": "C13",
   "status": "proved",
   "theorems": [
    "C13_index_layout",
    "C13_index_in_bounds",
    "C13_coeff_size",
    "C13_index_injective",
    "C13_index_surjective"
   ],
   "note": ""
  },
  {
   "property": "C14",
   "status": "proved",
   "theorems": [
    "C14_full_size",
    "C14_largest_degree",
    "C14_common_degree"
   ],
   "note": "IEEE double precision arithmetic (Flocq), sizes below 2^50 rows."
  },
  {
   "property": "C15",
   "status": "proved",
   "theorems": [
    "C15_order_independent",
    "C15_sorted_series"
   ],
   "note": ""
  },
  {
   "property": "C16",
   "status": "proved",
   "theorems": [
    "C16_bisect_position",
    "C16_bisect_brackets",
    "C16_bisect_in_bounds",
    "C16_bisect_nan"
   ],
   "note": ""
  },
  {
   "property": "C17",
   "status": "proved",
   "theorems": [
    "C17_linear_between",
    "C17_linear_node",
    "C17_linear_before",
    "C17_linear_after",
    "C17_linear_nan",
    "C17_array_element",
    "C17_array_raises",
    "C17_no_out_of_bounds"
   ],
   "note": ""
  },
  {
   "property": "C18",
   "status": "partial",
   "theorems": [
    "C18_nan_outside_refuted",
    "C18_constant_partial",
    "C18_before_partial",
    "C18_after_partial"
   ],
   "note": "Refuted after the last node without extrapolation: the code returns the last value, not NaN. The partial theorems state the exact behaviour of the code everywhere."
  },
  {
   "property": "C19",
   "status": "proved",
   "theorems": [
    "C19_derivative",
    "C19_total"
   ],
   "note": ""
  },
  {
   "property": "C20",
   "status": "proved",
   "theorems": [
    "C20_batch_pointwise",
    "C20_shape"
   ],
   "note": "batch = pointwise for arrays of positions and of coefficients, and the accepted shapes"
  },
  {
   "property": "C21",
   "status": "partial",
   "theorems": [
    "C21_batch_pointwise_partial",
    "C21_shape",
    "C21_refuted"
   ],
   "note": "pointwise for lists of coefficient sets where no piecewise constant set shares a coefficient with an earlier set; C21_refuted shows that with a linear set followed by a constant set of the same coefficient the result of a batch depends on the preceding times (finding F16)."
  },
  {
   "property": "C22",
   "status": "partial",
   "theorems": [
    "C22_paths_agree_partial",
    "C22_arrays_partial",
    "C22_refuted",
    "C22_convert_refuted",
    "C22_too_many_refuted"
   ],
   "note": "the two evaluation paths agree for at most 16 sets without common coefficients and with the same time conversion; refuted for common coefficients (overwritten instead of summed), mixed time conversions and more than 16 sets (findings F6, F16, F30)."
  },
  {
   "property": "C23",
   "status": "proved",
   "theorems": [
    "C23_batch_pointwise",
    "C23_shape"
   ],
   "note": ""
  },
  {
   "property": "C24",
   "status": "proved",
   "theorems": [
    "C24_legendre_schmidt"
   ],
   "note": "Real arithmetic; every degree, both algorithms, the switch between them, arrays of latitudes and arbitrary initial memory."
  },
  {
   "property": "C25",
   "status": "proved",
   "theorems": [
    "C25_legendre_derivative"
   ],
   "note": ""
  },
  {
   "property": "C26",
   "status": "proved",
   "theorems": [
    "C26_low_is_high",
    "C26_tables"
   ],
   "note": "The functions shc_legendre_low and shc_legendre_high are compared directly; C26_tables shows that the square root tables are the ones computed by the code."
  },
  {
   "property": "C27",
   "status": "proved",
   "theorems": [
    "C27_internal",
    "C27_external"
   ],
   "note": ""
  },
  {
   "property": "C28",
   "status": "proved",
   "theorems": [
    "C28_loncossin"
   ],
   "note": ""
  },
  {
   "property": "C29",
   "status": "partial",
   "theorems": [
    "C29_value_partial",
    "C29_shape",
    "C29_refuted"
   ],
   "note": "For all sizes, scales, times and coefficients if |min_degree2| is not larger than max(1, |min1|, |max1|, |max2|). Otherwise the code writes behind its buffer (C29_refuted, C59_fourier2d_refuted): pymm_fourier2d.h:344 uses min_degree1 twice."
  },
  {
   "property": "C30",
   "status": "partial",
   "theorems": [
    "C30_all_latitudes_partial",
    "C30_east_error",
    "C30_field_error",
    "C30_gradient_derivative_partial",
    "C30_near_pole_refuted",
    "C30_potential_exists"
   ],
   "note": "partial: the exact derivatives at all latitudes, at the poles the limit of the eastward component, except for the eastward component where 0 < cos(latitude) < 1e-10, which is that of the orders up to 1 only (C30_all_latitudes_partial, C30_near_pole_refuted) C30_east_error: the error there is at most 1e-10 of the omitted terms."
  },
  {
   "property": "C31",
   "status": "proved",
   "theorems": [
    "C31_pole_limit",
    "C31_pole_continuous"
   ],
   "note": "limit of the eastward derivative of the potential and continuity of the returned component"
  },
  {
   "property": "C32",
   "status": "proved",
   "theorems": [
    "C32_laplace"
   ],
   "note": ""
  },
  {
   "property": "C33",
   "status": "proved",
   "theorems": [
    "C33_linear",
    "C33_scale"
   ],
   "note": "linearity in the coefficients and in the scaling factors"
  },
  {
   "property": "C34",
   "status": "proved",
   "theorems": [
    "C34_modes",
    "C34_outputs"
   ],
   "note": ""
  },
  {
   "property": "C35",
   "status": "proved",
   "theorems": [
    "C35_truncation",
    "C35_padding"
   ],
   "note": "truncation and zero padding"
  },
  {
   "property": "C36",
   "status": "proved",
   "theorems": [
    "C36_spherical_round_trip",
    "C36_spherical_round_trip_pole",
    "C36_cartesian_round_trip"
   ],
   "note": "Longitude is recovered off the poles only, where it is defined."
  },
  {
   "property": "C37",
   "status": "proved",
   "theorems": [
    "C37_geodetic_spherical",
    "C37_geodetic_cartesian",
    "C37_spherical_geodetic",
    "C37_cartesian_geodetic",
    "C37_domain"
   ],
   "note": "Proved for all points beyond the evolute of the meridian ellipse, within which the conversion gives NaN (finding F27)."
  },
  {
   "property": "C38",
   "status": "proved",
   "theorems": [
    "C38_same_point",
    "C38_compose",
    "C38_identity"
   ],
   "note": ""
  },
  {
   "property": "C39",
   "status": "proved",
   "theorems": [
    "C39_inverse",
    "C39_isometry"
   ],
   "note": ""
  },
  {
   "property": "C40",
   "status": "proved",
   "theorems": [
    "C40_spherical_frame",
    "C40_geodetic_frame",
    "C40_normal"
   ],
   "note": ""
  },
  {
   "property": "C41",
   "status": "proved",
   "theorems": [
    "C41_output_rotation",
    "C41_output_potential",
    "C41_input_system"
   ],
   "note": "The arrays of positions are covered by C41_input_system; the rotation is stated per position, C20 lifts it to arrays."
  },
  {
   "property": "C42",
   "status": "proved",
   "theorems": [
    "C42_compose",
    "C42_compose_any",
    "C42_unsupported"
   ],
   "note": ""
  },
  {
   "property": "C43",
   "status": "proved",
   "theorems": [
    "C43_rotation",
    "C43_axis",
    "C43_to_dipole",
    "C43_radius",
    "C43_inverse"
   ],
   "note": ""
  },
  {
   "property": "C44",
   "status": "proved",
   "theorems": [
    "C44_rotated_model"
   ],
   "note": ""
  },
  {
   "property": "C45",
   "status": "partial",
   "theorems": [
    "C45_decimal_round_trip_refuted",
    "C45_decimal_round_trip_partial",
    "C45_mjd_round_trip"
   ],
   "note": "MJD2000 to decimal year and back is proved for all times. The other direction is refuted for the ten days dropped from 1582 (days_per_year(1582) is 365 while the year has 355 days) and proved elsewhere."
  },
  {
   "property": "C46",
   "status": "partial",
   "theorems": [
    "C46_increasing",
    "C46_whole_year",
    "C46_year_fraction",
    "C46_fraction_of_decimal_year",
    "C46_continuous_partial",
    "C46_continuous_refuted",
    "C46_inverse_monotone_refuted"
   ],
   "note": "Strict monotonicity, whole year and fraction are proved for all times; continuity fails at the start of 1583 only."
  },
  {
   "property": "C47",
   "status": "proved",
   "theorems": [
    "C47_epoch",
    "C47_next_date",
    "C47_valid_date",
    "C47_hours",
    "C47_no_overflow",
    "C47_before_first_day"
   ],
   "note": ""
  },
  {
   "property": "C48",
   "status": "partial",
   "theorems": [
    "C48_year_length_partial",
    "C48_year_length_refuted",
    "C48_year_start_date",
    "C48_year_of_day"
   ],
   "note": "The length of 1582 is wrong in the code (365 instead of 355 days); all other years are right."
  },
  {
   "property": "C49",
   "status": "proved",
   "theorems": [
    "C49_range",
    "C49_dipole_longitude"
   ],
   "note": "The sub-solar point is an argument; its computation is C50."
  },
  {
   "property": "C50",
   "status": "proved",
   "theorems": [
    "C50_ranges",
    "C50_original_ranges"
   ],
   "note": "real arithmetic; the zenith angle is bounded by 180 degrees without parallax only"
  },
  {
   "property": "C51",
   "status": "proved",
   "theorems": [
    "C51_sum",
    "C51_order",
    "C51_no_components",
    "C51_nested",
    "C51_single",
    "C51_constant"
   ],
   "note": "For all sequences of pushes of models which evaluate element by element; the rotation is stated with vrotate and convert (C38, C42). C51_single links it to sheval (C41)."
  },
  {
   "property": "C52",
   "status": "proved",
   "theorems": [
    "C52_intersection",
    "C52_ordered",
    "C52_bounds"
   ],
   "note": "For finite instants; an empty intersection is reported as (-inf, -inf)."
  },
  {
   "property": "C53",
   "status": "proved",
   "theorems": [
    "C53_structure",
    "C53_step_length",
    "C53_start"
   ],
   "note": "For arbitrary field functions including NaN; 'at most 2*max_steps+1 points' is length line <= k + n + 1 with k <= n. The starting point itself is not checked against the radii by the code."
  },
  {
   "property": "C54",
   "status": "partial",
   "theorems": [
    "C54_value_partial",
    "C54_times_refused",
    "C54_switch_partial",
    "C54_radius",
    "C54_models",
    "C54_f107_refuted",
    "C54_scalar_time_refuted",
    "C54_few_times_refuted"
   ],
   "note": "Proved for scalars and arrays of the dimensions of the positions; refuted for F10.7 given for the leading dimensions only, for F10.7 arrays with one time and, in the primary model, for times given for the leading dimensions only (C54_*_refuted)."
  },
  {
   "property": "C55",
   "status": "proved",
   "theorems": [
    "C55_radial_continuous",
    "C55_degrees"
   ],
   "note": "External field loaded from the data of a file (loader_mio.py), over the reals: the radial component along every radius is continuous, vanishes at infinity and is bounded below the ionosphere."
  },
  {
   "property": "C56",
   "status": "proved",
   "theorems": [
    "C56_secular_variation",
    "C56_wmm_files_only",
    "C56_degrees"
   ],
   "note": "From the lines of the file to the array of coefficients. Rows must have 0 <= m <= n and be distinct. Floats are real numbers."
  },
  {
   "property": "C57",
   "status": "partial",
   "theorems": [
    "C57_sound",
    "C57_complete",
    "C57_leading_comments_partial",
    "C57_line_terminators",
    "C57_blank_line_refuted"
   ],
   "note": "Soundness and completeness with respect to a line-by-line specification of the format for every file and every pair of int/float conversions. The last part of the property is false behind the header: blank lines between the rows are refused with ValueError (C57_blank_line_refuted); comments before the header and line terminators do not matter. ASCII text; the decoding of other bytes is not modelled."
  },
  {
   "property": "C58",
   "status": "partial",
   "theorems": [
    "C58_broadcast_partial",
    "C58_rejected",
    "C58_refuted",
    "C58_array"
   ],
   "note": "Proved for the times with at most as many dimensions as the locations; C58_refuted: times with more dimensions (several times at one location) always raise TypeError, as util.py:83 subscripts the integer coords.ndim. C58_array: reshape_array."
  },
  {
   "property": "C59",
   "status": "partial",
   "theorems": [
    "C59_legendre_partial",
    "C59_legendre_refuted",
    "C59_relradpow",
    "C59_loncossin",
    "C59_sheval_partial",
    "C59_sheval_refuted",
    "C59_workspace_partial",
    "C59_workspace_refuted",
    "C59_fourier2d_refuted",
    "C59_sheval2dfs_partial",
    "C59_sheval2dfs_refuted",
    "C59_shevaltemp_partial",
    "C59_shevaltemp_refuted"
   ],
   "note": "Proved for legendre with degree >= 1, relradpow, loncossin, sheval of a degree >= 1 (all accesses inside of the buffers, no element read before it is written), any sequence of evaluations of a degree >= 1 with one set of buffers (as shevaltemp and sheval2dfs do them), shevaltemp with usable sets, fourier2d with degrees which fit (C29_value_partial: a result, hence no write outside) and sheval2dfs with usable sets. Refuted for degree 0 (legendre, sheval and the others), which writes two elements behind the arrays, shevaltemp without the check of the number of times, fourier2d with a large |min_degree2| and sheval2dfs with inconsistent coefficient arrays. The sizes of the buffers are unbounded integers here: C94 has the degrees for which those of 32 bits are the same."
  },
  {
   "property": "C60",
   "status": "proved",
   "theorems": [
    "C60_incdec",
    "C60_norm"
   ],
   "note": "For the zero vector the code gives NaN (finding F28)."
  },
  {
   "property": "C61",
   "status": "proved",
   "theorems": [
    "C61_value_at_snapshot"
   ],
   "note": ""
  },
  {
   "property": "C62",
   "status": "proved",
   "theorems": [
    "C62_constant_value",
    "C62_constant_validity"
   ],
   "note": ""
  },
  {
   "property": "C63",
   "status": "proved",
   "theorems": [
    "C63_simple_round_trip",
    "C63_simple_increasing",
    "C63_simple_fraction"
   ],
   "note": ""
  },
  {
   "property": "C64",
   "status": "proved",
   "theorems": [
    "C64_potential_expansion"
   ],
   "note": ""
  },
  {
   "property": "C65",
   "status": "partial",
   "theorems": [
    "C65_value_partial"
   ],
   "note": "For the sets of valid (n, m) and degrees which fit (see C29; otherwise refuted); the last series counts if there are more for the same (n, m); the maximum degree is below 2^24."
  },
  {
   "property": "C66",
   "status": "proved",
   "theorems": [
    "C66_parameters"
   ],
   "note": ""
  },
  {
   "property": "C67",
   "status": "partial",
   "theorems": [
    "C67_validity",
    "C67_degree",
    "C67_min_degree_refuted"
   ],
   "note": "Validity and degree proved; the minimum degree is the larger one instead of the smaller one (C67_min_degree_refuted)."
  },
  {
   "property": "C68",
   "status": "proved",
   "theorems": [
    "C68_igrf_values",
    "C68_igrf_files_only",
    "C68_degrees"
   ],
   "note": "From the lines of the file to the array of coefficients. The times must be increasing, the rows distinct. Floats are real numbers."
  },
  {
   "property": "C69",
   "status": "partial",
   "theorems": [
    "C69_emm_values",
    "C69_emm_files_only",
    "C69_refused",
    "C69_incompatible_refuted"
   ],
   "note": "Proved for compatible files, and that nothing but files of the form is loaded. The refusal of incompatible pairs is refuted: the exception of parser_emm.py:58 is constructed but not raised (finding F7)."
  },
  {
   "property": "C70",
   "status": "partial",
   "theorems": [
    "C70_loaded_partial",
    "C70_columns_refuted",
    "C70_twice_refuted",
    "C70_values",
    "C70_validity",
    "C70_constant_validity",
    "C70_combined",
    "C70_combined_validity",
    "C70_spline_order_refuted"
   ],
   "note": "Everything but the spline order is proved; for the interpolation in MJD2000 the times of the columns are not in the last ten days of 1582, where the conversion is not increasing. The spline order of the header is ignored because of a misspelt keyword (loader_shc.py:114): refuted, finding F8. C70_loaded_partial: the files loaded are files of the format with a value for each time unless there is exactly one time; with one time further columns are ignored (C70_columns_refuted), and repeated coefficients are not refused (C70_twice_refuted)."
  },
  {
   "property": "C71",
   "status": "proved",
   "theorems": [
    "C71_equatorial",
    "C71_hour_angle"
   ],
   "note": ""
  },
  {
   "property": "C72",
   "status": "proved",
   "theorems": [
    "C72_horizontal",
    "C72_refraction",
    "C72_same_sun"
   ],
   "note": ""
  },
  {
   "property": "C73",
   "status": "proved",
   "theorems": [
    "C73_dates",
    "C73_day_before",
    "C73_day_after",
    "C73_original"
   ],
   "note": ""
  },
  {
   "property": "C74",
   "status": "proved",
   "theorems": [
    "C74_subsolar_point",
    "C74_default"
   ],
   "note": ""
  },
  {
   "property": "C75",
   "status": "proved",
   "theorems": [
    "C75_arrays",
    "C75_original_arrays"
   ],
   "note": ""
  },
  {
   "property": "C76",
   "status": "proved",
   "theorems": [
    "C76_potential",
    "C76_gradient",
    "C76_sheval"
   ],
   "note": "legendre, relradpow and loncossin are those of the model of C24-C28 on 1D arrays; floating point idealised as reals; degree of the Legendre arrays below 2^24"
  },
  {
   "property": "C77",
   "status": "proved",
   "theorems": [
    "C77_spharpot_pointwise",
    "C77_sphargrd_pointwise",
    "C77_spharpot_shape",
    "C77_sphargrd_shape"
   ],
   "note": "coefficient and Legendre array sizes below 2^50"
  },
  {
   "property": "C78",
   "status": "partial",
   "theorems": [
    "C78_sound_partial",
    "C78_complete",
    "C78_sound_refuted"
   ],
   "note": "Refuted: NumPy broadcasting lets a file of three rows of the same degree and order pass (C78_sound_refuted); soundness is proved but for this case and for non-empty degree ranges, completeness for all files of the format."
  },
  {
   "property": "C79",
   "status": "proved",
   "theorems": [
    "C79_internal",
    "C79_external"
   ],
   "note": "Stated by the series of the coefficient set; the evaluation of the loaded models is covered by C54 and C55."
  },
  {
   "property": "C80",
   "status": "proved",
   "theorems": [
    "C80_values",
    "C80_two_sets",
    "C80_refused",
    "C80_distinct_times_refuted"
   ],
   "note": "The CDF variables are given by their values. C80_distinct_times_refuted shows that files which touch are accepted with a duplicated time (finding F38); it is not part of the claim, whose values are for times which differ."
  },
  {
   "property": "C81",
   "status": "partial",
   "theorems": [
    "C81_defined",
    "C81_start_of_year",
    "C81_increasing",
    "C81_agrees_partial",
    "C81_agrees_refuted",
    "C81_refused",
    "C81_last_year_refuted"
   ],
   "note": "The agreement with mjd2000_to_decimal_year is false before 1583, where the calendars differ (C81_agrees_refuted); the times of the year 9999 raise ValueError (C81_last_year_refuted). All else is proved in full."
  },
  {
   "property": "C82",
   "status": "partial",
   "theorems": [
    "C82_position_partial",
    "C82_before_2000_refuted",
    "C82_almanac_refuted",
    "C82_terminates"
   ],
   "note": "Proved for all arrays of times from 2000 on and for whole days with the mean longitude the code uses, exactly up to the rounding of the seconds; before 2000 the returned point is proved to be the one of the next day and refuted to be the right one; the deviation of the mean longitude from the Almanac is refuted; exact times for which the process is terminated."
  },
  {
   "property": "C83",
   "status": "partial",
   "theorems": [
    "C83_time_partial",
    "C83_own_pole_refuted",
    "C83_history",
    "C83_range_partial",
    "C83_range_refuted",
    "C83_terminates_partial",
    "C83_before_1900_refuted"
   ],
   "note": "Proved for all sequences of calls: the values are the magnetic local times of the sub-solar points with a dipole pole of a time at most one day off, independent of earlier calls and of uninitialised variables; that the pole is the one of the time of the point is refuted, and so are the range for longitudes beyond 360 degrees and the independence of the other points before 1900; exact times of termination up to that."
  },
  {
   "property": "C84",
   "status": "partial",
   "theorems": [
    "C84_coordinates_partial",
    "C84_own_time_refuted",
    "C84_same_coordinates",
    "C84_unreadable"
   ],
   "note": "Proved for real numbers, well-formed files (at least one epoch in the increasing order, all coefficients) and points of 6000 km and more whose time is not within a day of -9999.9, a value used as a mark; the coefficients may be those of an earlier point of the array which differs by at most 1/365.25 of a year (C84_own_time_refuted for the stated property). The geodetic position is that of the series of Morrison and Pines (geodetic_position), not of the exact conversion. A file which cannot be read ends the process (C84_unreadable) instead of raising an exception."
  },
  {
   "property": "C85",
   "status": "partial",
   "theorems": [
    "C85_base_vectors_partial",
    "C85_factor_refuted"
   ],
   "note": "The vectors are those of Richmond multiplied by the length of the vector of the expansion, which the code does not normalise (C85_factor_refuted for the stated property); it is near to one for the distributed files. Otherwise for all positions outside of the poles where the functions have derivatives; restrictions of C84."
  },
  {
   "property": "C86",
   "status": "partial",
   "theorems": [
    "C86_history_partial",
    "C86_changed_file_refuted",
    "C86_nan_refuted"
   ],
   "note": "Proved for the same files during the process and the points of C84. Refuted when a file changes between the calls (C86_changed_file_refuted) and for a time which is not a number (C86_nan_refuted)."
  },
  {
   "property": "C87",
   "status": "partial",
   "theorems": [
    "C87_coordinates_partial",
    "C87_library_partial",
    "C87_states",
    "C87_errors",
    "C87_unreadable",
    "C87_empty",
    "C87_size_refuted",
    "C87_subsol_partial",
    "C87_mlt_partial",
    "C87_subsol_error",
    "C87_mlt_error",
    "C87_times_refuted"
   ],
   "note": "Proved for arrays of less than 2^31 elements, and with the limits of C82 to C86 (the time of an earlier element, usual points). Missing: the size of the arrays is converted to a 32 bit integer, with 2^31 elements nothing is evaluated and uninitialised memory is returned (C87_size_refuted, C87_times_refuted)."
  },
  {
   "property": "C88",
   "status": "proved",
   "theorems": [
    "C88_times",
    "C88_convert",
    "C88_same_coordinates",
    "C88_new_array_refuted",
    "C88_sph2geod",
    "C88_sph2cart",
    "C88_cart2sph",
    "C88_errors"
   ],
   "note": "The memory holds real numbers at aligned addresses; an access outside of the allocated memory is an error of the model. convert with equal coordinate types returns the input array itself, not a new one (C88_same_coordinates, C88_new_array_refuted)."
  },
  {
   "property": "C89",
   "status": "partial",
   "theorems": [
    "C89_sheval_partial",
    "C89_shevaltemp_partial",
    "C89_sheval2dfs_partial",
    "C89_strided_refuted",
    "C89_short_refuted",
    "C89_errors"
   ],
   "note": "Proved for positions whose components are next to each other in memory, with any other strides. Refuted for the other arrays: the stride of the last dimension is ignored (C89_strided_refuted), and sheval does not check that the last dimension is 3 (C89_short_refuted)."
  },
  {
   "property": "C90",
   "status": "partial",
   "theorems": [
    "C90_nondecreasing",
    "C90_strict_refuted",
    "C90_range",
    "C90_fraction_range",
    "C90_fraction_error",
    "C90_year_start",
    "C90_year_start_inverse",
    "C90_inverse_nondecreasing_partial",
    "C90_decimal_year_error",
    "C90_decimal_year_error_now",
    "C90_mjd_error",
    "C90_mjd_round_trip",
    "C90_mjd_round_trip_now",
    "C90_decimal_round_trip_partial",
    "C90_decimal_round_trip_now_partial",
    "C90_hours",
    "C90_hours_since_2000",
    "C90_simple_nondecreasing",
    "C90_simple_years",
    "C90_simple_fraction",
    "C90_simple_inverse_error",
    "C90_simple_error"
   ],
   "note": "Strict monotonicity and the calendar year as integer part are refuted in double precision (C90_strict_refuted); the inverse is not monotone and the round trip fails in the last days of the code's year 1582 as in C45, C46. No overflow; no fused multiply-add."
  },
  {
   "property": "C91",
   "status": "proved",
   "theorems": [
    "C91_node",
    "C91_between",
    "C91_before",
    "C91_after",
    "C91_nan",
    "C91_derivative",
    "C91_constant",
    "C91_array_element",
    "C91_array_raises"
   ],
   "note": "Without overflow; no fused multiply-add. The derivative for interval lengths between 2^-990 and 2^990."
  },
  {
   "property": "C92",
   "status": "partial",
   "theorems": [
    "C92_refuted",
    "C92_partial",
    "C92_no_silent_failure",
    "C92_tuple_refuted",
    "C92_flag_refuted",
    "C92_scale_refuted",
    "C92_sheval2dfs_refuted",
    "C92_sheval2dfs_set_refuted",
    "C92_sheval2dfs_partial"
   ],
   "note": "False in full: sheval2dfs leaks the offsets in each successful call and uses an invalid coefficient set; a failure to allocate the returned tuple releases the arrays twice; a failing truth test of a flag is ignored; the error message of sheval about scale_gradient formats NULL (the _refuted theorems).  Proved for everything else; no failure is silent is proved for all the functions."
  },
  {
   "property": "C93",
   "status": "partial",
   "theorems": [
    "C93_bisect",
    "C93_interp",
    "C93_legendre_partial",
    "C93_legendre_refuted",
    "C93_relradpow",
    "C93_loncossin",
    "C93_spharpot",
    "C93_sphargrd",
    "C93_fourier2d_partial",
    "C93_sunpos",
    "C93_sunpos_original",
    "C93_errors"
   ],
   "note": "False in full: legendre of degree 0 writes outside of its arrays (C93_legendre_refuted, see C59), and fourier2d writes outside of its buffers unless the degrees fit (C59_fourier2d_refuted).  Proved for everything else."
  },
  {
   "property": "C94",
   "status": "partial",
   "theorems": [
    "C94_legendre_partial",
    "C94_legendre_overflow_refuted",
    "C94_legendre_refuted",
    "C94_relradpow_partial",
    "C94_relradpow_refuted",
    "C94_sheval_partial",
    "C94_sheval_far_partial",
    "C94_potential_partial",
    "C94_sheval_refuted",
    "C94_sheval_pole_refuted",
    "C94_sizes_partial",
    "C94_sizes_refuted",
    "C94_bounds_refuted",
    "C94_rows_partial"
   ],
   "note": "False in full, with the exact limits of the degrees: legendre and sheval are right up to 23171 (legendre up to 65533 away from the poles), whatever an overflow does, and overflow above; with the wrap around of the usual compilers the value at the pole is wrong by a factor of 3 from the degree 23172, and the buffers are too small for the degrees 65535 to 80263. sheval away from the poles is right up to 46339 (stated for spherical coordinates)."
  },
  {
   "property": "C95",
   "status": "partial",
   "theorems": [
    "C95_bisect",
    "C95_interp",
    "C95_legendre",
    "C95_loncossin",
    "C95_relradpow",
    "C95_spharpot",
    "C95_sphargrd",
    "C95_fourier2d",
    "C95_sunpos",
    "C95_sunpos_original",
    "C95_times",
    "C95_convert",
    "C95_vrot_sph2geod",
    "C95_vrot_sph2cart",
    "C95_vrot_cart2sph",
    "C95_sheval_partial",
    "C95_sheval_refuted",
    "C95_shevaltemp_partial",
    "C95_shevaltemp_refuted",
    "C95_incomplete_sets_refuted",
    "C95_sheval2dfs_partial",
    "C95_sheval2dfs_refuted"
   ],
   "note": "Equivalences for all the functions. For the three evaluation functions the full statement is refuted: sheval does not check the last axis of the positions, shevaltemp accepts sets with too few times or with orders larger than the degrees, and sheval2dfs does not raise ValueError for a wrong number of coefficients; the equivalences without these conditions are proved."
  },
  {
   "property": "C96",
   "status": "partial",
   "theorems": [
    "C96_functions",
    "C96_calls",
    "C96_flags_partial",
    "C96_flags_refuted",
    "C96_flags_unnoticed",
    "C96_names_refuted",
    "C96_names_partial",
    "C96_by_name",
    "C96_order"
   ],
   "note": "Proved for all the functions without flags; for those with a flag if the flag has a truth value (otherwise refuted: the exception is not noticed). Four functions are not called as documented (refuted): fourier2d, spharpot, decimal_year_to_mjd2000 and eval_mlt; the calls they take are proved."
  },
  {
   "property": "C97",
   "status": "partial",
   "theorems": [
    "C97_accepted",
    "C97_refused",
    "C97_pending",
    "C97_2dfs_accepted",
    "C97_2dfs_refused",
    "C97_2dfs_documented_refuted",
    "C97_2dfs_scale",
    "C97_constructor",
    "C97_order_refuted",
    "C97_order_partial"
   ],
   "note": "Both equivalences are proved. The last sentence is refuted: a float or NumPy integer equal to 2 is accepted by the constructor only; it is proved for the orders of the type int."
  },
  {
   "property": "C98",
   "status": "partial",
   "theorems": [
    "C98_array_partial",
    "C98_scalar_partial",
    "C98_coefficients"
   ],
   "note": "Between the poles and the latitudes with a cosine of 1e-10 the eastward component is proved to be that of the orders up to 1, not of all orders (the statement is false there: C30_near_pole_refuted); everywhere else, the poles included, the full gradient is proved."
  },
  {
   "property": "C99",
   "status": "partial",
   "theorems": [
    "C99_wmm_partial",
    "C99_igrf_partial",
    "C99_emm_partial",
    "C99_wmm_coefficients",
    "C99_igrf_coefficients",
    "C99_emm_coefficients"
   ],
   "note": "Between the poles and the latitudes with a cosine of 1e-10 the eastward component is proved to be that of the orders up to 1, not of all orders (the statement is false there: C30_near_pole_refuted); everywhere else, the poles included, the full gradient is proved."
  },
  {
   "property": "C100",
   "status": "partial",
   "theorems": [
    "C100_composed_partial",
    "C100_combined_partial"
   ],
   "note": "Proved with the limit of C98 close to the poles, for composed files whose validity begins before its end, and for at most 16 combined files without common coefficients (more are refused and common ones are not added, see C22_too_many_refuted and C22_refuted). Which of several valid files is taken differs between a scalar time and an array (see C09_scalar_is_array_refuted)."
  },
  {
   "property": "C101",
   "status": "partial",
   "theorems": [
    "C101_geographic_partial",
    "C101_dipole_partial"
   ],
   "note": "Missing: the limit of C98 close to the poles (its error is bounded by C30_field_error); sets of one product with common coefficients; real arithmetic. The dipole theorem holds for all coordinates of the points in the dipole frame, its poles included."
  },
  {
   "property": "C102",
   "status": "partial",
   "theorems": [
    "C102_arrays",
    "C102_one_time",
    "C102_determined",
    "C102_wmm_partial",
    "C102_igrf_partial",
    "C102_emm_partial",
    "C102_shc_partial",
    "C102_mma_partial"
   ],
   "note": "The independence of the coordinate systems (C102_arrays, C102_one_time, C102_determined) is proved in full for locations off the centre of the Earth; the fields of the loaded models, given for any spherical coordinates of the position, have the limit of C98 close to the poles (error: C30_field_error). The arithmetic is that of the reals. The 2C MMA models are in C101_dipole_partial."
  },
  {
   "property": "C103",
   "status": "partial",
   "theorems": [
    "C103_internal_partial",
    "C103_external_partial"
   ],
   "note": "Missing: close to the poles of the dipole frame the orders above 1 of the eastward component (C30_near_pole_refuted, error: C30_field_error); series whose degrees do not fit the buffers (C29_refuted) and files with repeated degrees and orders; the shapes of times and indices refused or mishandled by the code (C54_*_refuted); real arithmetic."
  },
  {
   "property": "C104",
   "status": "partial",
   "theorems": [
    "C104_position_partial",
    "C104_beyond_pole_refuted",
    "C104_one_field"
   ],
   "note": "Proved for latitudes between -90 and 90 degrees, the poles included, and points off the centre of the Earth (C104_position_partial), refuted for latitudes beyond the poles (C104_beyond_pole_refuted). C104_one_field: the field of C98 to C103 is one vector in space. Real arithmetic."
  },
  {
   "property": "C105",
   "status": "partial",
   "theorems": [
    "C105_history_partial",
    "C105_composed",
    "C105_combined",
    "C105_alone_composed",
    "C105_alone_combined",
    "C105_refuted"
   ],
   "note": "Proved for all programs in which no set is passed alone to the constructor of its own class (C105_history_partial). Otherwise false: __new__ returns the set and Python runs __init__ of the class on it again, so that the set becomes its own item and every evaluation ends in RecursionError (C105_refuted, for all such sets C105_alone_composed and C105_alone_combined). C105_composed and C105_combined justify the trees of CoefModel.v."
  },
  {
   "property": "C106",
   "status": "proved",
   "theorems": [
    "C106_gradient",
    "C106_field",
    "C106_systems",
    "C106_shc",
    "C106_wmm",
    "C106_igrf",
    "C106_emm",
    "C106_unit",
    "C106_functions",
    "C106_truncation"
   ],
   "note": "Real arithmetic. The bound of the potential is attained by the axial dipole at the pole (example). C106_gradient and C106_field: the same for the vectors, with the eastward component as the code computes it close to the poles; this bound is attained by the axial dipole at the pole too. C106_shc, C106_wmm, C106_igrf and C106_emm: the same from the files to the results of the evaluation for arrays of times and locations. C106_systems: the same for positions and results in all coordinate systems."
  },
  {
   "property": "C107",
   "status": "proved",
   "theorems": [
    "C107_internal",
    "C107_external",
    "C107_field",
    "C107_external_field",
    "C107_wmm",
    "C107_shc",
    "C107_igrf",
    "C107_emm",
    "C107_systems",
    "C107_external_systems"
   ],
   "note": "Real arithmetic, positive radii. The eastward component close to the poles is that computed by the code. The bound is attained by the axial dipole at the poles. C107_systems and C107_external_systems: in all coordinate systems."
  },
  {
   "property": "C108",
   "status": "proved",
   "theorems": [
    "C108_gradient",
    "C108_field",
    "C108_wmm",
    "C108_rates",
    "C108_igrf",
    "C108_igrf_rates",
    "C108_emm",
    "C108_emm_rates",
    "C108_shc",
    "C108_shc_rates",
    "C108_systems"
   ],
   "note": "Real arithmetic. The eastward component close to the poles is that computed by the code. C108_systems: in all coordinate systems. C108_igrf and C108_emm: the change with the time for the IGRF and EMM files; C108_igrf_rates and C108_emm_rates: the rates exist. C108_shc and C108_shc_rates: the same for SHC files with two columns or more."
  }
 ]
}