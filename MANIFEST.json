{
 "claims": [
  {
   "property": "C01",
   "status": "proved",
   "theorems": [
    "C01_invert_samples_mirrors"
   ],
   "note": "All element types, all dimensions whose product is a size_t value."
  },
  {
   "property": "C02",
   "status": "proved",
   "theorems": [
    "C02_invert_lines_mirrors"
   ],
   "note": "All element types, all dimensions whose product is a size_t value."
  },
  {
   "property": "C03",
   "status": "proved",
   "theorems": [
    "C03_inversion_laws"
   ],
   "note": ""
  },
  {
   "property": "C04",
   "status": "partial",
   "theorems": [
    "C04_inversion_size_check_refuted",
    "C04_inversion_size_check_partial"
   ],
   "note": "Full statement is false: a samples*lines product that wraps around 2^64 passes the size check and elements outside the image are touched. Proved for products that do not wrap."
  },
  {
   "property": "C05",
   "status": "proved",
   "theorems": [
    "C05_extrema_of_history",
    "C05_extrema_order_independent"
   ],
   "note": "All six map types, histories of any length."
  },
  {
   "property": "C06",
   "status": "partial",
   "theorems": [
    "C06_range_test_partial",
    "C06_is_valid",
    "C06_range_test_int64_refuted"
   ],
   "note": "Proved for every type but 64-bit integers. False for those: bounds are rounded to double, so 2^63 is in the range of an extrema whose maximum is 2^63-1."
  },
  {
   "property": "C07",
   "status": "partial",
   "theorems": [
    "C07_merge_maximum",
    "C07_merge_minimum_partial",
    "C07_merge_minimum_refuted"
   ],
   "note": "The maximum merges correctly; the minimum only if the target already has one. Merging into unset extrema never sets the minimum."
  },
  {
   "property": "C08",
   "status": "partial",
   "theorems": [
    "C08_nan_ignored_partial",
    "C08_nan_first_refuted"
   ],
   "note": "True when the first datum is a number; a leading NaN makes both extrema NaN for ever."
  },
  {
   "property": "C09",
   "status": "partial",
   "theorems": [
    "C09_construction_partial",
    "C09_nan_rejected",
    "C09_minimum_conversion_undefined_iff",
    "C09_maximum_conversion_undefined_iff",
    "C09_construction_refuted",
    "C09_setters_partial"
   ],
   "note": "Clipping is one-sided. Exact conditions for the undefined conversions are proved."
  },
  {
   "property": "C10",
   "status": "partial",
   "theorems": [
    "C10_map_contents_partial",
    "C10_stores_unique",
    "C10_crossed_limits_rejected"
   ],
   "note": "Proved for every type and limits except 64-bit maps without a user maximum or with limits that double cannot represent (undefined, C11)."
  },
  {
   "property": "C11",
   "status": "partial",
   "theorems": [
    "C11_no_undefined_conversion_partial",
    "C11_int64_refuted"
   ],
   "note": "Proved for the same limits as C10. Every 64-bit map without a user maximum is undefined."
  },
  {
   "property": "C12",
   "status": "partial",
   "theorems": [
    "C12_limits_select_partial",
    "C12_limits_select_refuted"
   ],
   "note": "Proved for limits representable in the map type. False otherwise: limits are truncated before they are compared."
  },
  {
   "property": "C13",
   "status": "partial",
   "theorems": [
    "C13_reported_extremes_partial",
    "C13_keywords_of_all_planes_partial"
   ],
   "note": "Proved for the same limits as C10."
  },
  {
   "property": "C14",
   "status": "proved",
   "theorems": [
    "C14_blank_value",
    "C14_misfit_blank_rejected",
    "C14_float_nan_iff_unmapped",
    "C10_map_contents_partial"
   ],
   "note": "Unmapped cells of integer maps hold the blank value by C10_map_contents_partial."
  },
  {
   "property": "C15",
   "status": "proved",
   "theorems": [
    "C15_observers",
    "C15_counts_bounded"
   ],
   "note": "Any number of observers, any number of planes; fewer plot calls than cells allowed."
  },
  {
   "property": "C16",
   "status": "partial",
   "theorems": [
    "C16_warning_partial",
    "C16_warning_refuted"
   ],
   "note": "The warning means nothing stored so far in any plane, so an empty plane after one with data is not reported."
  },
  {
   "property": "C17",
   "status": "partial",
   "theorems": [
    "C17_first_read_partial",
    "C17_photo_images_answer",
    "C17_first_read_refuted"
   ],
   "note": "Proved (mode R) for images that answer at the point, which photo images without NaN pixels do; false for photo images with NaN pixels: NaN left in the variable makes every later photo image fail."
  },
  {
   "property": "C18",
   "status": "partial",
   "theorems": [
    "C18_unweighted_partial",
    "C18_count_partial",
    "C17_first_read_refuted"
   ],
   "note": "Proved (mode R) for images that answer at the point; with NaN pixels the composite loses contributors (last line of C17_first_read_refuted)."
  },
  {
   "property": "C19",
   "status": "partial",
   "theorems": [
    "C19_weighted_partial",
    "C19_sky_removal_refuted"
   ],
   "note": "Proved (mode R) for images that answer and positive total weight. With sky removal every weight is zero and the composite is the last datum."
  },
  {
   "property": "C20",
   "status": "partial",
   "theorems": [
    "C20_single_partial",
    "C20_single_refuted"
   ],
   "note": "Proved for images that leave the variable alone without data; false if a later image fails in interpolation and clobbers it."
  },
  {
   "property": "C21",
   "status": "partial",
   "theorems": [
    "C21_prior_content_partial",
    "C21_prior_content_refuted"
   ],
   "note": "Holds for non-NaN prior contents in any arithmetic; with a NaN there no photo image has data."
  },
  {
   "property": "C22",
   "status": "partial",
   "theorems": [
    "C22_reads_inside_partial",
    "C22_reads_inside_refuted"
   ],
   "note": "Proved in any arithmetic for right/bottom nibbles not exceeding the image; refuted for larger ones (wrap-around accepted at construction)."
  },
  {
   "property": "C23",
   "status": "proved",
   "theorems": [
    "C23_success_not_nan"
   ],
   "note": "Any arithmetic (in particular IEEE doubles)."
  },
  {
   "property": "C24",
   "status": "partial",
   "theorems": [
    "C24_weight_partial",
    "C24_weight_refuted"
   ],
   "note": "Proved without sky removal; with sky removal the weight of every pixel is 0."
  },
  {
   "property": "C25",
   "status": "partial",
   "theorems": [
    "C25_nibbles_partial",
    "C25_nibbles_refuted"
   ],
   "note": "Proved for right and top nibbles not exceeding the image; false beyond (wrap-around)."
  },
  {
   "property": "C26",
   "status": "proved",
   "theorems": [
    "C26_interpolation",
    "C26_four_pixels"
   ],
   "note": "Mode R with NaN; locality in any arithmetic."
  },
  {
   "property": "C27",
   "status": "partial",
   "theorems": [
    "C27_between_partial",
    "C27_at_pixel_refuted",
    "C27_between_refuted"
   ],
   "note": "False: at a pixel position the result is (2bl+br+tl)/4 and values can exceed all four pixels. Betweenness holds on a pixel line or when the bottom pixels agree."
  },
  {
   "property": "C28",
   "status": "proved",
   "theorems": [
    "C28_flat_field",
    "C28_flat_field_mismatch"
   ],
   "note": "Any arithmetic."
  },
  {
   "property": "C29",
   "status": "partial",
   "theorems": [
    "C29_quadratic_roots_partial",
    "C29_quadratic_roots_refuted"
   ],
   "note": "False for b = c = 0, where the second root is computed as 0/0; proved for all other coefficients over the reals."
  },
  {
   "property": "C30",
   "status": "proved",
   "theorems": [
    "C30_comparisons_real",
    "C30_comparisons_double"
   ],
   "note": "Real and rounded double versions; monotonicity on doubles for int-sized n; signum and sgn over the reals."
  },
  {
   "property": "C31",
   "status": "partial",
   "theorems": [
    "C31_bracketed_search",
    "C31_bracket_invariant_partial",
    "C31_search_succeeds_refuted"
   ],
   "note": "Over the reals with NaN. The bracket invariant is lost once a step divides by a zero slope: the point becomes NaN and the search ends in runtime_error."
  },
  {
   "property": "C32",
   "status": "proved",
   "theorems": [
    "C32_angles_real",
    "C32_angles_double"
   ],
   "note": "Reals with NaN, and doubles including NaN and infinities."
  },
  {
   "property": "C33",
   "status": "proved",
   "theorems": [
    "C33_index_formulas",
    "C33_dimensions",
    "C33_algebra",
    "C33_checked_access"
   ],
   "note": "All dimensions, over the reals."
  },
  {
   "property": "C34",
   "status": "proved",
   "theorems": [
    "C34_rotations",
    "C34_direction"
   ],
   "note": "Over the reals."
  },
  {
   "property": "C35",
   "status": "proved",
   "theorems": [
    "C35_radii_validated"
   ],
   "note": "Doubles including NaN and infinities (an infinite equatorial radius is accepted), and reals with NaN."
  },
  {
   "property": "C36",
   "status": "proved",
   "theorems": [
    "C36_latitude_conversions",
    "C36_graphic_is_normal"
   ],
   "note": "Over the reals; at the exact pole the infinite tangent is taken."
  },
  {
   "property": "C37",
   "status": "proved",
   "theorems": [
    "C37_centric_radius"
   ],
   "note": "Over the reals."
  },
  {
   "property": "C38",
   "status": "proved",
   "theorems": [
    "C38_cosines",
    "C38_cosine_range"
   ],
   "note": "Over the reals; range is measured from the body's centre, as the code computes."
  },
  {
   "property": "C39",
   "status": "partial",
   "theorems": [
    "C39_intersection_partial",
    "C39_intersection_refuted"
   ],
   "note": "Over the reals, observer outside. Tangent lines and bodies behind the observer abort on an assertion."
  },
  {
   "property": "C40",
   "status": "proved",
   "theorems": [
    "C40_curvature"
   ],
   "note": "Over the reals."
  },
  {
   "property": "C41",
   "status": "partial",
   "theorems": [
    "C41_setters_partial",
    "C41_nan_refuted",
    "C41_pair_refuted",
    "C41_pair_stored",
    "C41_positions_stored",
    "C41_positions_refuted"
   ],
   "note": "Holds for numbers; NaN is accepted by six setters and pair setters store the first value before rejecting the second (refuted)."
  },
  {
   "property": "C42",
   "status": "proved",
   "theorems": [
    "C42_visible"
   ],
   "note": "Reals. Emission and incidence cosines are angles between the surface normal and the directions to observer and sun."
  },
  {
   "property": "C43",
   "status": "partial",
   "theorems": [
    "C43_roundtrip_partial",
    "C43_retrograde_refuted"
   ],
   "note": "Reals, body center given in pixels, no lens correction, body in front of the camera. Prograde: proved. Retrograde: the longitude comes back off by twice the sub-observer longitude (refuted)."
  },
  {
   "property": "C44",
   "status": "proved",
   "theorems": [
    "C44_lens"
   ],
   "note": "Reals."
  },
  {
   "property": "C45",
   "status": "proved",
   "theorems": [
    "C45_mask"
   ],
   "note": "Image sizes whose product is below 2^64. The mask exists exactly when no pixel fails the assertion in pix2latlon."
  },
  {
   "property": "C46",
   "status": "proved",
   "theorems": [
    "C46_every_cell_once"
   ],
   "note": "Any arithmetic, including IEEE doubles."
  },
  {
   "property": "C47",
   "status": "proved",
   "theorems": [
    "C47_uniform"
   ],
   "note": "Over the reals."
  },
  {
   "property": "C48",
   "status": "partial",
   "theorems": [
    "C48_interval",
    "C48_interval_refuted"
   ],
   "note": "Proved when the longitudes are less than a turn apart; refuted for 360..0 and -360..360."
  },
  {
   "property": "C49",
   "status": "partial",
   "theorems": [
    "C49_simple_cylindrical_doubles",
    "C49_mercator_doubles",
    "C49_polar_doubles",
    "C49_orthographic_doubles",
    "C49_simple_cylindrical",
    "C49_mercator",
    "C49_polar",
    "C49_polar_refuted",
    "C49_west_of_map_refuted",
    "C49_small_interval_refuted"
   ],
   "note": "Memory safety for IEEE doubles; exact contents and termination over the reals for simple cylindrical (western edge not east of the prime meridian), Mercator and polar stereographic (which also draws opposite meridians); orthographic contents are C87. Refuted otherwise."
  },
  {
   "property": "C50",
   "status": "partial",
   "theorems": [
    "C50_every_cell_once",
    "C50_forward",
    "C50_conformal",
    "C50_found_partial",
    "C50_cells_partial",
    "C50_symmetric_partial"
   ],
   "note": "C50_found_partial uses the real root finder, over the reals: cells are at the preimage of their line within 10 eps (eq/pol)^2, except that a latitude within 18 eps (eq/pol)^2 of a pole is not shown to be one. That the finder answers within 100 steps, and rounding, are not covered. The other two _partial theorems assume a finder whose answers are exact solutions."
  },
  {
   "property": "C51",
   "status": "partial",
   "theorems": [
    "C51_every_cell_once",
    "C51_radius",
    "C51_conformal",
    "C51_found_partial",
    "C51_distance_partial",
    "C51_layout_partial"
   ],
   "note": "C51_found_partial uses the real root finder, over the reals: cells are at the preimage of their distance from the center within 98 eps (eq/pol)^4, except for latitudes within 194 eps (eq/pol)^4 of the opposite pole. That the finder answers within 100 steps, and rounding, are not covered. The other two _partial theorems assume a finder whose answers are exact solutions."
  },
  {
   "property": "C52",
   "status": "partial",
   "theorems": [
    "C52_offsets",
    "C52_disc",
    "C52_surface_partial",
    "C52_tilted_refuted"
   ],
   "note": "Offsets and disc for all views; positions for spheres, equatorial and polar views; refuted for tilted views of oblate bodies."
  },
  {
   "property": "C53",
   "status": "proved",
   "theorems": [
    "C53_planes_fit"
   ],
   "note": "Doubles. The mathematics library is any one that is accurate (log10 within 1/10, powers of ten up to 10^22 exact). Longitudes do not fit an unsigned byte and are refused."
  },
  {
   "property": "C54",
   "status": "partial",
   "theorems": [
    "C54_rejects",
    "C54_floating",
    "C54_scale_partial",
    "C54_fits_partial",
    "C54_refuted"
   ],
   "note": "Refusals proved for all limits. Success does not imply a fit: refuted with five witnesses, and equal limits are undefined behaviour."
  },
  {
   "property": "C55",
   "status": "proved",
   "theorems": [
    "C55_converts_back",
    "C55_fails_alike"
   ],
   "note": "Values over the reals; failure behaviour in any arithmetic."
  },
  {
   "property": "C56",
   "status": "partial",
   "theorems": [
    "C56_longitude",
    "C56_longitude_double",
    "C56_latitude",
    "C56_latitude_double",
    "C56_nan_refuted"
   ],
   "note": "Proved over the reals and, for the ranges, in doubles. A NaN latitude is reported as data (refuted)."
  },
  {
   "property": "C57",
   "status": "partial",
   "theorems": [
    "C57_writes_partial",
    "C57_refused_unchanged",
    "C57_array_size",
    "C57_refuted"
   ],
   "note": "Proved for planes of two or more elements whose total number of elements is below 2^63-1: exactly the attempts with the right length that the library accepts succeed, until the array is full, and each accepted plane occupies its own range. False for planes of one element: the last one is refused (refuted with a witness family)."
  },
  {
   "property": "C58",
   "status": "proved",
   "theorems": [
    "C58_user_values_stay",
    "C58_command"
   ],
   "note": ""
  },
  {
   "property": "C59",
   "status": "partial",
   "theorems": [
    "C59_refuted",
    "C59_agreeing_partial",
    "C59_rule_partial"
   ],
   "note": "The claim is false (refuted): the first plane, and the last photo of a mosaic, decides the data type, so the result depends on the order and may not hold the data of other planes. Proved when all photos agree and for a single merge of two types of the same kind."
  },
  {
   "property": "C60",
   "status": "proved",
   "theorems": [
    "C60_first_setting",
    "C60_nan",
    "C60_defaults"
   ],
   "note": "Settings before make; the FITS DATAMIN/DATAMAX caller of PhotoImageFactory uses the same two functions."
  },
  {
   "property": "C61",
   "status": "partial",
   "theorems": [
    "C61_refuted",
    "C61_maximum_partial",
    "C61_unlimited"
   ],
   "note": "The claim is false (refuted): whenever every photo has a minimum an empty optional is dereferenced. Proved for the maximum when some photo lacks a minimum."
  },
  {
   "property": "C62",
   "status": "partial",
   "theorems": [
    "C62_partial",
    "C62_refuted"
   ],
   "note": "Proved when the parameters cannot be populated; false when the data type is undetermined (refuted): the old file is already gone."
  },
  {
   "property": "C63",
   "status": "proved",
   "theorems": [
    "C63_display",
    "C63_prefix",
    "C63_percentage",
    "C63_planes"
   ],
   "note": "The percentage shown is the rounded product's integer part, so it can be one below the exact one (29 of 100 shows 28)."
  },
  {
   "property": "C64",
   "status": "proved",
   "theorems": [
    "C64_direction",
    "C64_doubles",
    "C64_not_a_number"
   ],
   "note": "Doubles: the direction is kept up to 2^-43 degrees. NaN passes the range check (C64_not_a_number)."
  },
  {
   "property": "C65",
   "status": "partial",
   "theorems": [
    "C65_range",
    "C65_kind"
   ],
   "note": "Range and sign proved in doubles. The conversion of planetographic latitudes is proved over the reals only."
  },
  {
   "property": "C66",
   "status": "partial",
   "theorems": [
    "C66_user_file_partial",
    "C66_internal",
    "C66_refuted"
   ],
   "note": "Proved for user files giving both intervals, no limits and nibble values below 2^32, and without a user file; refuted for data limits and for single intervals. Files are trees of entries; C96-C98 tie texts to trees."
  },
  {
   "property": "C67",
   "status": "partial",
   "theorems": [
    "C67_alone_partial",
    "C66_internal",
    "C67_refuted"
   ],
   "note": "Proved where no LATITUDE or SIMPLE_C without a type follows a graphic one; refuted there (graphic_lat is reset only after SIMPLE_C)."
  },
  {
   "property": "C68",
   "status": "proved",
   "theorems": [
    "C68_numbers",
    "C68_position_refuted"
   ],
   "note": "Acceptance is exactly: given numbers are 1,2,3,... in order and the count is that of PLANES. Observed besides: an unnumbered plane does not advance the expected number."
  },
  {
   "property": "C69",
   "status": "partial",
   "theorems": [
    "C69_accepted",
    "C69_described",
    "C69_doubles",
    "C69_validate_refuted"
   ],
   "note": "Proved for the two characteristics a file can give, over the reals and in doubles (a computed radius is rounded; it may overflow to infinity). Refuted for Radii::validate with three arbitrary values: a zero polar radius, contradicting values and NaN are accepted."
  },
  {
   "property": "C70",
   "status": "partial",
   "theorems": [
    "C70_meaning",
    "C70_no_value",
    "C70_division",
    "C70_text_partial",
    "C70_refuted",
    "C70_no_variables"
   ],
   "note": "Tokens: proved, with precedence, assignments and division by zero. Texts: proved for tokens set apart by blanks; refuted without blanks, because a sign directly before a number is scanned as part of it. Variables cannot be used at all: the scanner never yields one."
  },
  {
   "property": "C71",
   "status": "proved",
   "theorems": [
    "C71_functions",
    "C71_variables",
    "C71_putsym"
   ],
   "note": ""
  },
  {
   "property": "C72",
   "status": "proved",
   "theorems": [
    "C72_success",
    "C72_later",
    "C72_exception",
    "C72_not_ready"
   ],
   "note": "Results of commands, parsers and the command line are arguments; undefined behaviour in them is excluded."
  },
  {
   "property": "C73",
   "status": "proved",
   "theorems": [
    "C73_total",
    "C73_meaning",
    "C73_files"
   ],
   "note": "The built-in parser used without Argp; the Argp branch hands the command line to that library and is not modelled."
  },
  {
   "property": "C74",
   "status": "proved",
   "theorems": [
    "C74_newton_result"
   ],
   "note": "Over the reals with NaN."
  },
  {
   "property": "C75",
   "status": "partial",
   "theorems": [
    "C75_magnitude_partial",
    "C75_magnitude_refuted"
   ],
   "note": "False for one-element vectors with a negative element; proved for 2 and 3 elements."
  },
  {
   "property": "C76",
   "status": "proved",
   "theorems": [
    "C76_bracketed_result"
   ],
   "note": "Over the reals, for continuous functions."
  },
  {
   "property": "C77",
   "status": "partial",
   "theorems": [
    "C77_mosaic_has_data_partial"
   ],
   "note": "For prior contents of the caller's variable that are not NaN; a NaN there defeats photo images (C17, C21)."
  },
  {
   "property": "C78",
   "status": "partial",
   "theorems": [
    "C78_center_pixel_partial",
    "C78_inconsistent_refuted"
   ],
   "note": "Reals, no lens correction. Needs a center offset of at most range * cos(sub-observer latitude); contradictory input gives null matrices (refuted)."
  },
  {
   "property": "C79",
   "status": "partial",
   "theorems": [
    "C79_axis_pixel_partial",
    "C79_axis_pixel_refuted"
   ],
   "note": "Reals. True on the observer's meridian, false everywhere else."
  },
  {
   "property": "C80",
   "status": "partial",
   "theorems": [
    "C80_north_center_partial",
    "C80_north_axis_partial",
    "C80_north_axis_refuted"
   ],
   "note": "Reals. Upside down when the observer is nearer to the polar axis than the optical-axis point."
  },
  {
   "property": "C81",
   "status": "partial",
   "theorems": [
    "C81_lens_refuted"
   ],
   "note": "Refuted: the correction is applied to axis-relative coordinates."
  },
  {
   "property": "C82",
   "status": "partial",
   "theorems": [
    "C82_sky_removal_refuted"
   ],
   "note": "Refuted for views given at the optical axis without a body center."
  },
  {
   "property": "C83",
   "status": "proved",
   "theorems": [
    "C83_mercator_distortion"
   ],
   "note": "Over the reals."
  },
  {
   "property": "C84",
   "status": "partial",
   "theorems": [
    "C84_polar_distortion_sphere",
    "C84_polar_distortion_refuted"
   ],
   "note": "Exact for spheres, refuted for every other spheroid."
  },
  {
   "property": "C85",
   "status": "proved",
   "theorems": [
    "C85_accepts",
    "C52_disc"
   ],
   "note": "Acceptance without a center point (with one see C86); the view drawn is view_of in C52_disc. Over the reals."
  },
  {
   "property": "C86",
   "status": "partial",
   "theorems": [
    "C86_visible_partial",
    "C86_visible_refuted"
   ],
   "note": "Longitudes in [0, 360], non-polar views; refuted for negative longitudes."
  },
  {
   "property": "C87",
   "status": "partial",
   "theorems": [
    "C87_grid_partial",
    "C87_grid_drawn",
    "C87_retrograde_refuted"
   ],
   "note": "Prograde bodies, or observer above longitude 0 or 180; refuted for retrograde bodies otherwise. Non-polar views, poles excluded."
  },
  {
   "property": "C88",
   "status": "proved",
   "theorems": [
    "C88_cosines"
   ],
   "note": "Over the reals; pi is the number pi."
  },
  {
   "property": "C89",
   "status": "partial",
   "theorems": [
    "C89_success",
    "C89_complete_partial",
    "C89_refuted",
    "C89_null_refuted"
   ],
   "note": "Proved when no library call fails and every factory yields an image. False otherwise (refuted): a failed image write, or a factory that yields none, still returns 0."
  },
  {
   "property": "C90",
   "status": "proved",
   "theorems": [
    "C90_direction",
    "C90_doubles"
   ],
   "note": "Doubles: the direction is kept up to 2^-43 degrees. NaN passes the range check."
  },
  {
   "property": "C91",
   "status": "partial",
   "theorems": [
    "C91_integers_partial",
    "C91_sizes_partial",
    "C91_refuted"
   ],
   "note": "Proved for texts without point and exponent. Refuted otherwise: strtoll stops there and the rest is ignored, so 1E3 is 1."
  },
  {
   "property": "C92",
   "status": "partial",
   "theorems": [
    "C92_integer_maps",
    "C92_other_maps"
   ],
   "note": "Proved for maps of integers and values written without point and exponent (see C91 for others). For other maps an exception leaves the parser."
  },
  {
   "property": "C93",
   "status": "proved",
   "theorems": [
    "C93_null_pointers"
   ],
   "note": ""
  },
  {
   "property": "C94",
   "status": "partial",
   "theorems": [
    "C94_read",
    "C94_defined",
    "C94_refuted"
   ],
   "note": "Proved for images of at most two axes and fewer than 2^63 pixels; refuted for others (read past the array of first pixels, signed overflow)."
  },
  {
   "property": "C95",
   "status": "partial",
   "theorems": [
    "C95_photo",
    "C95_limits",
    "C95_unopened",
    "C95_answers_partial",
    "C95_sees_partial"
   ],
   "note": "Contents proved in general; values of points without interpolation and sky removal; the line of sight for prograde bodies with a given centre, without lens correction, over the reals."
  },
  {
   "property": "C96",
   "status": "proved",
   "theorems": [
    "C96_one_meaning",
    "C96_several_files"
   ],
   "note": "The derivation relation of the grammar is proved equivalent to a parsing function. That Bison's automaton accepts what the grammar derives is trusted."
  },
  {
   "property": "C97",
   "status": "partial",
   "theorems": [
    "C97_layout",
    "C97_refuted"
   ],
   "note": "Proved for layouts with a blank between the colon and a name, without carriage returns; refuted without these conditions."
  },
  {
   "property": "C98",
   "status": "proved",
   "theorems": [
    "C98_entries"
   ],
   "note": "Proved for every layout of every sequence of tokens (both directions)."
  },
  {
   "property": "C99",
   "status": "proved",
   "theorems": [
    "C99_joined"
   ],
   "note": ""
  },
  {
   "property": "C100",
   "status": "proved",
   "theorems": [
    "C100_elements"
   ],
   "note": "Sizes a FITS file can hold (fits_size); plane_limits excludes limits outside the map's type, for which C09 shows undefined conversions. command_of is None if plot_map throws or the grid takes more than fuel steps."
  },
  {
   "property": "C101",
   "status": "proved",
   "theorems": [
    "C101_computed"
   ],
   "note": "log10 accurate to 1/10 and exact small powers of ten; computed numbers within the documented range of the plane (proved for the planes in C56)."
  },
  {
   "property": "C102",
   "status": "proved",
   "theorems": [
    "C102_latitudes"
   ],
   "note": "IEEE doubles with round to nearest; constants of the program."
  },
  {
   "property": "C103",
   "status": "proved",
   "theorems": [
    "C103_longitudes"
   ],
   "note": "IEEE doubles with round to nearest; exact fmod."
  },
  {
   "property": "C104",
   "status": "proved",
   "theorems": [
    "C104_whole_body"
   ],
   "note": "Without a user file; at most 2^37 lines and 2^52 samples."
  },
  {
   "property": "C105",
   "status": "proved",
   "theorems": [
    "C105_photo_of_entry"
   ],
   "note": "For input without user files; g and the viewing geometry are those of the model, the geometry object itself is an argument."
  },
  {
   "property": "C106",
   "status": "proved",
   "theorems": [
    "C106_photo_elements",
    "C106_plain"
   ],
   "note": "sound sources: two axes, nibbles not larger than the image, mask of the size of the image when the sky is removed; outside of them reading is undefined (C25, C94)."
  },
  {
   "property": "C107",
   "status": "partial",
   "theorems": [
    "C107_mosaic_of_entries",
    "C107_mosaic_elements",
    "C107_clean",
    "C107_single_refuted"
   ],
   "note": "The elements are proved for all mosaics of sound photos. Refuted: with averaging, a point that one photo shows is blank if a later photo has a NaN pixel there. long double is an argument (x_long)."
  },
  {
   "property": "C108",
   "status": "proved",
   "theorems": [
    "C108_headers"
   ],
   "note": "With or without a user file. The values of BSCALE and BZERO are those of C100 and C54, DATAMIN and DATAMAX those of C61."
  },
  {
   "property": "C109",
   "status": "partial",
   "theorems": [
    "C109_refuted"
   ],
   "note": "Refuted for every map of photos: the values are parsed and ignored."
  },
  {
   "property": "C110",
   "status": "proved",
   "theorems": [
    "C110_mercator"
   ],
   "note": "The latitude of a line is that found by root_find (an argument, see C50 and C51) and converted by the centric latitude of the body; without a user file."
  },
  {
   "property": "C111",
   "status": "proved",
   "theorems": [
    "C111_simple_cylindrical",
    "C111_mercator"
   ],
   "note": "Without a user file or with one that the parser follows (C66). Simple cylindrical maps of the whole body; maps with other edges are C49, with its findings. The distance from the equator is that of mercator_x with any library functions."
  },
  {
   "property": "C112",
   "status": "proved",
   "theorems": [
    "C112_success",
    "C112_order",
    "C112_entries",
    "C112_simple_cylindrical",
    "C112_problem",
    "C112_faulty",
    "C112_options"
   ],
   "note": "The parser made by Flex and Bison is any function that accepts what the grammar derives (the grammar is unambiguous, C96). Runs that end in undefined behaviour, maps whose drawing throws and a faulty configuration file with errno ENOENT are outside of the model."
  },
  {
   "property": "C113",
   "status": "partial",
   "theorems": [
    "C113_partial",
    "C113_refuted"
   ],
   "note": "Refuted for an empty and for a relative XDG_CONFIG_HOME; proved for all other environments."
  },
  {
   "property": "C114",
   "status": "proved",
   "theorems": [
    "C114_polar"
   ],
   "note": "Elements of longitude and planetocentric latitude planes of polar stereographic maps, from the input text to the file, in doubles. The results of root_find, atan2, hypot and the latitude conversions are arbitrary arguments: the theorem says what they are given and how their results are stored. Negation is modelled as 0 - x, so the sign of a zero offset is not claimed (longitudes are mod 360)."
  },
  {
   "property": "C115",
   "status": "proved",
   "theorems": [
    "C115_polar_grid"
   ],
   "note": "Grid intervals are multiples of 1/1024 degree, which doubles add exactly. Cells of dots more than 1e13 radii of the map away, and of maps one cell wide or high, are not given. The values of sin, cos, tan, pow and of the latitude conversion are arbitrary arguments."
  },
  {
   "property": "C116",
   "status": "proved",
   "theorems": [
    "C116_orthographic"
   ],
   "note": "Spheres, or views from above the equator; the functions of <cmath> are arguments with stated accuracy; the quadratic solver and all other operations are IEEE doubles."
  },
  {
   "property": "C117",
   "status": "proved",
   "theorems": [
    "C117_body"
   ],
   "note": "Contraction of products and sums into fused operations is left out; the functions of <cmath> are arguments, assumed close to the real ones as stated in Body_Spec.good_library."
  },
  {
   "property": "C118",
   "status": "proved",
   "theorems": [
    "C118_cosines"
   ],
   "note": "For runs that complete; the assertions on the range of the cosines hold in such runs."
  },
  {
   "property": "C119",
   "status": "proved",
   "theorems": [
    "C119_cylindrical"
   ],
   "note": ""
  },
  {
   "property": "C120",
   "status": "proved",
   "theorems": [
    "C120_graphic"
   ],
   "note": ""
  },
  {
   "property": "C121",
   "status": "proved",
   "theorems": [
    "C121_orthographic"
   ],
   "note": "Views as in C116 (plain_view)."
  },
  {
   "property": "C122",
   "status": "partial",
   "theorems": [
    "C122_assertion_refuted",
    "C122_assertion_partial"
   ],
   "note": "False as stated: with every function of cmath correctly rounded, a sphere lit from 8 degrees north gives a cosine of 1 + 2^-52 at the sub-solar point and the assertion of Mu0Image.cpp fails, for a map read from an input file (C122_assertion_refuted). Proved: where the cosine of the geometry keeps away from -1 and 1 by the error bound, the assertion holds and the datum is that cosine to within the bound."
  },
  {
   "property": "C123",
   "status": "proved",
   "theorems": [
    "C123_latitudes",
    "C123_longitudes",
    "C123_normal"
   ],
   "note": "For bodies at most twice as wide as high, lines no closer than 1e-9 degrees and the stated accuracy of cmath; the theorem is about runs that end as they should and planes without DATA_MIN and DATA_MAX of their own."
  },
  {
   "property": "C124",
   "status": "proved",
   "theorems": [
    "C124_cosines"
   ],
   "note": "As C123; runs that fail the assertion of C122 do not end as they should."
  },
  {
   "property": "C125",
   "status": "proved",
   "theorems": [
    "C125_orthographic"
   ],
   "note": "For the views of C116 (spheres, or views from above the equator) and bodies at most twice as wide as high."
  },
  {
   "property": "C126",
   "status": "proved",
   "theorems": [
    "C126_cylindrical",
    "C126_orthographic"
   ],
   "note": "C112 composed with C119 and C121. The functions of <cmath> and of bodies are as in C117; the accuracy of the functions that give the scale factors, and CFITSIO without failures, are hypotheses."
  },
  {
   "property": "C127",
   "status": "proved",
   "theorems": [
    "C127_settings",
    "C127_throws"
   ],
   "note": "A setter that throws does so before it assigns, so the object is as before."
  },
  {
   "property": "C128",
   "status": "proved",
   "theorems": [
    "C128_latitudes",
    "C128_longitudes",
    "C128_graphic"
   ],
   "note": "C112 composed with the theorems on runs with limits. The functions of <cmath> and of bodies are as in C117 for planetographic maps; the accuracy of the functions that give the scale factors, and CFITSIO without failures, are hypotheses. Longitudes for maps less than 2^52 samples wide and limits that are equal or 1e-9 degree apart."
  },
  {
   "property": "C129",
   "status": "proved",
   "theorems": [
    "C129_headers",
    "C129_grid",
    "C129_polar_grid",
    "C129_orthographic"
   ],
   "note": "C112 composed with C108, C111, C115 and C116, under the hypotheses of these: grids for CFITSIO without failures and below 2^53 cells, polar grids in terms of the latitude functions given as arguments, orthographic maps for views as in C116."
  },
  {
   "property": "C130",
   "status": "proved",
   "theorems": [
    "C130_mercator",
    "C130_polar"
   ],
   "note": "C112 composed with C110 and C114, under the hypotheses of these: the latitudes are those found by root_find (an argument, see C50 and C51) and converted by the latitude functions of the body."
  }
 ]
}