{
 "claims": [
  {
   "property": "C01",
   "status": "proved",
   "theorems": [
    "C01_missed_photons_unchanged",
    "C01_other_columns_unchanged",
    "C01_hit_photons_get_their_values",
    "C01_per_photon_values"
   ],
   "note": "Any element, stack of elements, hit pattern and returned values; baffles are treated in C10. Also holds for the list left behind by an exception."
  },
  {
   "property": "C02",
   "status": "proved",
   "theorems": [
    "C02_probability_in_range"
   ],
   "note": "Any tree of containers, elements, stacks and baffles. Hypothesis: elements return numbers (not nan) as factors; nan is C03."
  },
  {
   "property": "C03",
   "status": "partial",
   "theorems": [
    "C03_bad_factor_rejected_partial",
    "C03_nan_factor_refuted"
   ],
   "note": "Factors below 0 or above 1 are rejected (proved for all elements); false for nan, which is accepted (refutation with witness)."
  },
  {
   "property": "C04",
   "status": "proved",
   "theorems": [
    "C04_no_hit_no_change"
   ],
   "note": "Elements and stacks; a baffle is meant to block photons that miss it, see C10."
  },
  {
   "property": "C05",
   "status": "proved",
   "theorems": [
    "C05_call_order",
    "C05_split",
    "C05_observers",
    "C05_return_values_ignored",
    "C05_instrument"
   ],
   "note": "Any nesting of containers with hooks."
  },
  {
   "property": "C06",
   "status": "partial",
   "theorems": [
    "C06_search_sound",
    "C06_match",
    "C06_search_complete_partial",
    "C06_stop_at_first_outermost",
    "C06_option_has_no_effect",
    "C06_search_complete_refuted"
   ],
   "note": "Soundness for every tree. Completeness with stop_at_first=False holds if no matching element sits inside another match; false in general because the option has no effect (refutation)."
  },
  {
   "property": "C07",
   "status": "proved",
   "theorems": [
    "C07_first_of_class"
   ],
   "note": ""
  },
  {
   "property": "C08",
   "status": "proved",
   "theorems": [
    "C08_sequence_ok",
    "C08_uncallable_refused"
   ],
   "note": "Construction checks of Sequence: wrong objects are refused, the list is kept in order."
  },
  {
   "property": "C09",
   "status": "partial",
   "theorems": [
    "C09_named_columns_partial",
    "C09_default_value_refuted",
    "C09_default_value_lost",
    "C09_second_call_refuted"
   ],
   "note": "True for columns given by name for any history; false for columns given as dictionaries with a default value (refutations)."
  },
  {
   "property": "C10",
   "status": "proved",
   "theorems": [
    "C10_baffle",
    "C10_blocked_forever"
   ],
   "note": ""
  },
  {
   "property": "C11",
   "status": "proved",
   "theorems": [
    "C11_stack_multiplies",
    "C11_stack_misses"
   ],
   "note": "Layers use the array interface (specific_process_photons)."
  },
  {
   "property": "C12",
   "status": "partial",
   "theorems": [
    "C12_positions_partial",
    "C12_ids_distinct",
    "C12_uncertainty",
    "C12_decompose44",
    "C12_shear_refuted"
   ],
   "note": "Proved for element matrices without shear; a sheared element matrix is accepted and its shear is dropped (refutation)."
  },
  {
   "property": "C13",
   "status": "proved",
   "theorems": [
    "C13_not_cumulative",
    "C13_elements_follow",
    "C13_reset",
    "C13_reset_wiggle",
    "C13_total"
   ],
   "note": "Any history of wiggle, moveglobal and moveindividual; draws are arguments."
  },
  {
   "property": "C14",
   "status": "partial",
   "theorems": [
    "C14_iff_partial",
    "C14_translations_partial",
    "C14_refuted"
   ],
   "note": "True exactly if the change commutes with the container's own position (for example translations of an unrotated container); false in general (refutation)."
  },
  {
   "property": "C15",
   "status": "proved",
   "theorems": [
    "C15_distributed",
    "C15_name",
    "C15_nothing_else"
   ],
   "note": ""
  },
  {
   "property": "C16",
   "status": "partial",
   "theorems": [
    "C16_direction",
    "C16_vector_partial",
    "C16_facing_refuted",
    "C16_line_partial"
   ],
   "note": "The code computes the vector from the point to the element, so elements face away from the point (proved for all inputs); centers and the line of the normal are right."
  },
  {
   "property": "C17",
   "status": "proved",
   "theorems": [
    "C17_keepcol_history",
    "C17_missing_column",
    "C17_format_all_steps",
    "C17_by_photon",
    "C17_format_coordinates",
    "C17_format_mixed",
    "C17_format_tolerance"
   ],
   "note": "Snapshots are a heap of arrays; compared to a specification with values."
  },
  {
   "property": "C18",
   "status": "proved",
   "theorems": [
    "C18_ambiguous",
    "C18_pos4d",
    "C18_zoom",
    "C18_product",
    "C18_singular",
    "C18_invertible",
    "C18_other_keywords",
    "C18_rotation"
   ],
   "note": "Values of wrong type are outside the claim."
  },
  {
   "property": "C19",
   "status": "partial",
   "theorems": [
    "C19_round_trip",
    "C19_other_w_rejected",
    "C19_mix_refused",
    "C19_points_partial",
    "C19_points_accuracy",
    "C19_points_exact_refuted",
    "C19_distance"
   ],
   "note": "Exact up to the tolerance with which h2e recognises normalized points: w within about 1e-5 of 1 is not divided out (refutation of exactness, bound on the error)."
  },
  {
   "property": "C20",
   "status": "proved",
   "theorems": [
    "C20_on_both",
    "C20_parallel",
    "C20_unique_point",
    "C20_in_plane",
    "C20_two_points",
    "C20_any_point",
    "C20_point_normal_plane",
    "C20_angle"
   ],
   "note": ""
  },
  {
   "property": "C21",
   "status": "proved",
   "theorems": [
    "C21_hit_iff",
    "C21_values",
    "C21_bases"
   ],
   "note": "Elements without shear (mutually perpendicular axes), position with w = 1, direction with w = 0."
  },
  {
   "property": "C22",
   "status": "proved",
   "theorems": [
    "C22_hit_iff",
    "C22_values",
    "C22_direction",
    "C22_bases",
    "C22_surface"
   ],
   "note": "The azimuth is modelled by an arctan2 built from acos; np.linalg.inv enters as a matrix with its defining equations as hypotheses. A ray parallel to the axis gives nan roots in the code and is never a hit."
  },
  {
   "property": "C23",
   "status": "partial",
   "theorems": [
    "C23_between_partial",
    "C23_interval_partial",
    "C23_representation",
    "C23_full_circle",
    "C23_equal_borders_refuted"
   ],
   "note": "True for different borders; equal borders mean the full circle in the code (refutation of the literal reading)."
  },
  {
   "property": "C24",
   "status": "proved",
   "theorems": [
    "C24_anglediff",
    "C24_identity"
   ],
   "note": ""
  },
  {
   "property": "C25",
   "status": "proved",
   "theorems": [
    "C25_unit_transverse",
    "C25_angles",
    "C25_convention"
   ],
   "note": ""
  },
  {
   "property": "C26",
   "status": "proved",
   "theorems": [
    "C26_transport",
    "C26_matrix",
    "C26_jones",
    "C26_unchanged",
    "C26_replace_nans"
   ],
   "note": "Directions within 1e-8 of parallel or anti-parallel are treated as unchanged; for these transversality holds up to 1e-8."
  },
  {
   "property": "C27",
   "status": "partial",
   "theorems": [
    "C27_refuted"
   ],
   "note": "False: the shape check is inverted into always raising; proved for every input."
  },
  {
   "property": "C28",
   "status": "proved",
   "theorems": [
    "C28_rotation",
    "C28_angle",
    "C28_right_handed"
   ],
   "note": ""
  },
  {
   "property": "C29",
   "status": "proved",
   "theorems": [
    "C29_aligned",
    "C29_parallel_refused",
    "C29_otherwise_matrix"
   ],
   "note": "Parallel input is refused up to the tolerance in the code."
  },
  {
   "property": "C30",
   "status": "partial",
   "theorems": [
    "C30_accepted",
    "C30_bin_partial",
    "C30_share",
    "C30_zero_refuted"
   ],
   "note": "A uniform draw of exactly 0 selects the first bin of the internal order, which has no probability (C30_zero_refuted). Everything else is proved for all draws above 0 and for any internal order of the bins."
  },
  {
   "property": "C31",
   "status": "partial",
   "theorems": [
    "C31_times_partial",
    "C31_ends_partial",
    "C31_hangs_refuted",
    "C31_stuck_refuted"
   ],
   "note": "Refuted in general: if fewer than 1/1.1 photons are expected in the (remaining) exposure the batch size is int(...) = 0 and the while loop never ends (C31_hangs_refuted, C31_stuck_refuted). When the function returns, the result is exactly the list of arrivals before the end of the exposure."
  },
  {
   "property": "C32",
   "status": "proved",
   "theorems": [
    "C32_selector_accepted",
    "C32_selector_default",
    "C32_selector",
    "C32_selector_interval",
    "C32_file",
    "C32_file_accepted",
    "C32_table"
   ],
   "note": "np.random.choice is modelled by numpy's documented inverse-cdf search; interpolated probabilities enter as non-negative numbers."
  },
  {
   "property": "C33",
   "status": "proved",
   "theorems": [
    "C33_share",
    "C33_shuffled",
    "C33_one_aperture",
    "C33_number_of_photons",
    "C33_area"
   ],
   "note": "The shuffle enters as an arbitrary list of positions."
  },
  {
   "property": "C34",
   "status": "proved",
   "theorems": [
    "C34_rectangle",
    "C34_rectangle_area",
    "C34_circle",
    "C34_circle_even",
    "C34_circle_checked",
    "C34_projection",
    "C34_circle_area"
   ],
   "note": "For circles the two axes are assumed to have exactly equal length (the code allows the tolerance of np.isclose)."
  },
  {
   "property": "C35",
   "status": "proved",
   "theorems": [
    "C35_grooves",
    "C35_equation",
    "C35_evanescent",
    "C35_order_zero"
   ],
   "note": "Grating at any position without shear, either sign convention, transmission and reflection. Rays in the grating plane (p.n = 0) never hit a plane; the code would give them a direction that is not normalized."
  },
  {
   "property": "C36",
   "status": "partial",
   "theorems": [
    "C36_direction_refuted",
    "C36_displacement_along_y",
    "C36_turned"
   ],
   "note": "The docstring says that positive orders are displaced along the local e_z; the code displaces along the local e_y for groove angle 0 (refuted with order 1 at normal incidence, proved along e_y in general). Turning by pi with the opposite order gives the same direction."
  },
  {
   "property": "C37",
   "status": "proved",
   "theorems": [
    "C37_common_focus",
    "C37_total",
    "C37_center",
    "C37_probability",
    "C37_reflections"
   ],
   "note": "Undeflected center rays need a positive focal length (a negative one flips the direction). The reflectivity interpolator is an argument."
  },
  {
   "property": "C38",
   "status": "partial",
   "theorems": [
    "C38_pixels",
    "C38_hit",
    "C38_range_partial",
    "C38_range_general_partial",
    "C38_monotone",
    "C38_warning",
    "C38_range_refuted"
   ],
   "note": "False if the chip size is not a multiple of the pixel size: the code rounds the number of pixels and only warns. Then coordinates exceed the range by up to a quarter pixel (proved bound, tight). Proved exactly for multiples."
  },
  {
   "property": "C39",
   "status": "partial",
   "theorems": [
    "C39_all_hit_partial",
    "C39_values",
    "C39_some_hit_fails",
    "C39_any_hit_refuted"
   ],
   "note": "CCDRedistNormal returns energies for all photons instead of those that hit; writing them raises ValueError whenever some but not all photons of a list of two or more hit. Proved for the case that all hit."
  },
  {
   "property": "C40",
   "status": "proved",
   "theorems": [
    "C40_radial_norm",
    "C40_radial_inplane",
    "C40_radial_total",
    "C40_zero",
    "C40_random",
    "C40_random_azimuth"
   ],
   "note": "Angles and uniform numbers are arguments. A ray parallel to the radial vector has no plane of reflection (nan)."
  },
  {
   "property": "C41",
   "status": "partial",
   "theorems": [
    "C41_reflection",
    "C41_probability",
    "C41_general_fresnel",
    "C41_normal_incidence_nan",
    "C41_components_refuted",
    "C41_components_partial"
   ],
   "note": "s and p components of the new polarization are built from squared amplitudes, so a derived class with non-zero p reflectivity does not keep the relation of components (refuted); C41_components_partial gives the relation for all photons and reflectivities: with complete reflection it is kept exactly for pure s or p polarization and for equal parts. All else proved; normal incidence gives nan. np.linalg.inv is an argument with its contract as hypothesis."
  },
  {
   "property": "C42",
   "status": "partial",
   "theorems": [
    "C42_existing_geometries_partial",
    "C42_only_groove_angle_partial",
    "C42_hole_radius",
    "C42_leaks_to_new_geometry_refuted",
    "C42_shared_groove_angle_refuted"
   ],
   "note": "Existing geometries keep their parameters except for the groove angle of a shared geometry object; false in general (two refutations)."
  },
  {
   "property": "C43",
   "status": "partial",
   "theorems": [
    "C43_matched_by_tag_partial",
    "C43_lost_photon_fails",
    "C43_probability_once_refuted",
    "C43_probability_zero_or_one"
   ],
   "note": "False as stated: the column probability of the joined table already is the probability handed in, so it is squared (C43_probability_once_refuted; right only for probabilities 0 and 1). A list of two or more photons of which the C code drops one fails in the transport of the polarization. The C code is an arbitrary list of rows."
  },
  {
   "property": "C44",
   "status": "proved",
   "theorems": [
    "C44_parametric_on_torus",
    "C44_roots_are_parametric",
    "C44_normal_is_gradient",
    "C44_normal_points_outwards"
   ],
   "note": "Exact real arithmetic. The gradient statement is for position and orientation without zoom; the factor (R + r cos theta) is negative on the inner side of a torus with r > R."
  },
  {
   "property": "C45",
   "status": "partial",
   "theorems": [
    "C45_range_covered_partial",
    "C45_product_of_axes",
    "C45_equal_limits_empty",
    "C45_one_element_refuted"
   ],
   "note": "False for equal limits: the documentation gives them as the way to place one element, but np.arange(p, p, d) is empty. Proved for lower limit < upper limit."
  },
  {
   "property": "C46",
   "status": "partial",
   "theorems": [
    "C46_ring_angles",
    "C46_symmetric",
    "C46_points",
    "C46_no_overlap_partial",
    "C46_overlap_bound",
    "C46_no_overlap_refuted",
    "C46_single_number_fails"
   ],
   "note": "False as stated: element_angle is d / (2 pi r) instead of d / r, so elements on narrow segments overlap. Proved with the extra condition d1 (1 - 1/2pi) <= d0 dphi / 2, and a general lower bound n/(n+1). Distances are measured along the arc."
  },
  {
   "property": "C47",
   "status": "proved",
   "theorems": [
    "C47_lists",
    "C47_names",
    "C47_lists_defined",
    "C47_one_moved",
    "C47_select",
    "C47_select_generated"
   ],
   "note": "Values are exact reals in mm and rad; np.unique is modelled as a sort with removal of equal rows."
  },
  {
   "property": "C48",
   "status": "proved",
   "theorems": [
    "C48_one_result_per_set",
    "C48_analysis_wins",
    "C48_independent",
    "C48_moveelem"
   ],
   "note": "Photon lists are mutable objects in a memory. The instrument is any function that changes only the list it is given; wiggle function and analysis are arbitrary functions that return."
  },
  {
   "property": "C49",
   "status": "proved",
   "theorems": [
    "C49_last_move",
    "C49_reset",
    "C49_rigid"
   ],
   "note": ""
  },
  {
   "property": "C50",
   "status": "partial",
   "theorems": [
    "C50_all_set",
    "C50_error",
    "C50_no_new_attribute",
    "C50_single_partial",
    "C50_all_or_nothing_refuted"
   ],
   "note": "False: attributes before the missing one (and elements before the failing one) are already changed (refutation). ValueError in all cases and no new attribute are proved; for one attribute of one element nothing is changed."
  },
  {
   "property": "C51",
   "status": "proved",
   "theorems": [
    "C51_round_trip",
    "C51_groups"
   ],
   "note": "Exact reals. numpy slices, including negative and too large indices, and the broadcasting of single elements are modelled."
  },
  {
   "property": "C52",
   "status": "partial",
   "theorems": [
    "C52_agree_partial",
    "C52_channels_shifted",
    "C52_other_first_channel_refuted",
    "C52_empty_row",
    "C52_slices",
    "C52_numbers"
   ],
   "note": "False for a first channel other than 1 (rmf subtracts 1 instead of TLMIN; proved shift), for rows without a group (ValueError) and for fixed length arrays (the padding is returned). Proved for first channel 1 and rows made by arr_to_rmf_matrix_row with at least one group."
  },
  {
   "property": "C53",
   "status": "partial",
   "theorems": [
    "C53_conversion_defined",
    "C53_unchanged_partial",
    "C53_single_group",
    "C53_refuted",
    "C53_single_row_refuted"
   ],
   "note": "False if no row has more than one group, the usual case: squeeze turns arrays into numbers which full_rmf indexes (every row with a group fails). Proved if a row has two or more groups, no column is constant and values are exact in single precision."
  },
  {
   "property": "C54",
   "status": "partial",
   "theorems": [
    "C54_last_constant",
    "C54_last_variable_partial",
    "C54_keyword_hides",
    "C54_refuted",
    "C54_one_place"
   ],
   "note": "False: a constant is stored as keyword, and a keyword hides every array assigned later. Proved if the last value is constant or none was before. Assignment to single elements of a column is not modelled."
  },
  {
   "property": "C55",
   "status": "partial",
   "theorems": [
    "C55_range_from_tab_partial",
    "C55_tab_from_range_refuted",
    "C55_upper_width_refuted",
    "C55_lower_width",
    "C55_fixed_fraction",
    "C55_fixed_width"
   ],
   "note": "Proved for subclasses that implement osip_tab. False for subclasses that implement osip_range (FixedFractionOSIP): osip_tab then returns E + upper bound instead of upper bound - E."
  },
  {
   "property": "C56",
   "status": "partial",
   "theorems": [
    "C56_reapply_partial",
    "C56_zero_refuted",
    "C56_third_refuted"
   ],
   "note": "Proved for ARFs and factors that vary over the bins and nonzero first factors. False in general: a zero factor turns the area into nan, and a constant factor stored as keyword hides the factors of later calls (see C54)."
  },
  {
   "property": "C57",
   "status": "proved",
   "theorems": [
    "C57_disjoint",
    "C57_sum",
    "C57_consecutive"
   ],
   "note": "Fractions add up to at most 1 for any set of orders and any monotone redistribution with values in [0, 1]; with fraction 1 consecutive windows telescope exactly."
  },
  {
   "property": "C58",
   "status": "proved",
   "theorems": [
    "C58_ebounds",
    "C58_one_channel",
    "C58_any_order",
    "C58_widths"
   ],
   "note": "Conversion of units is an arbitrary function."
  },
  {
   "property": "C59",
   "status": "proved",
   "theorems": [
    "C59_bounds",
    "C59_equal_values",
    "C59_nan_excluded",
    "C59_zero_weight",
    "C59_weighted_per_order",
    "C59_file_order",
    "C59_weight_at_node",
    "C59_order_column",
    "C59_unknown_order"
   ],
   "note": "np.ma.average and np.interp are modelled; axis=None for average_R_Aeff."
  },
  {
   "property": "C60",
   "status": "partial",
   "theorems": [
    "C60_complete_partial",
    "C60_sound_partial",
    "C60_too_wide_refuted",
    "C60_negative_center_refuted"
   ],
   "note": "Proved up to the relative tolerance 1e-5 of np.isclose for central angles in [0, 2 pi]. False exactly: photons outside of max_ang are marked (rtol of np.isclose), and for a negative ang_0 the center of the sector is not found."
  },
  {
   "property": "C61",
   "status": "proved",
   "theorems": [
    "C61_total",
    "C61_per_order"
   ],
   "note": "n_photons = 0 gives nan and is excluded."
  },
  {
   "property": "C62",
   "status": "proved",
   "theorems": [
    "C62_triangles",
    "C62_edges",
    "C62_closed",
    "C62_exact"
   ],
   "note": "Holds for floating point comparison too: the comparison is an argument that only has to be true where the exact one is, and false for i < n at i_in = n_in."
  },
  {
   "property": "C63",
   "status": "partial",
   "theorems": [
    "C63_equal_sizes_partial",
    "C63_offsets_partial",
    "C63_mixed_refuted",
    "C63_missing_point_refuted"
   ],
   "note": "False in general: the cumulative sum is shifted by the first size instead of starting at 0, so indices are wrong as soon as sizes differ. Proved for equal sizes (all uses in marxs), and that the offsets are right only then."
  },
  {
   "property": "C64",
   "status": "partial",
   "theorems": [
    "C64_integers",
    "C64_refused",
    "C64_mixed",
    "C64_floats_partial",
    "C64_floats_length",
    "C64_floats_refuted",
    "C64_digits"
   ],
   "note": "Integers proved. False for floats: the fraction of red and green leaks into the next channel, (0.5, 0, 0) becomes 0x7f8000. Proved for floats when red and green are multiples of 1/255."
  },
  {
   "property": "C65",
   "status": "proved",
   "theorems": [
    "C65_lookup",
    "C65_get",
    "C65_set",
    "C65_in_own_items"
   ],
   "note": "Also: \"in\" looks at the dictionary only."
  },
  {
   "property": "C66",
   "status": "proved",
   "theorems": [
    "C66_first_supported",
    "C66_none",
    "C66_otherwise",
    "C66_shapes",
    "C66_no_shape",
    "C66_white_space",
    "C66_shapes_text"
   ],
   "note": "Proved for the modelled functions; mayavi, x3d and threejs libraries themselves are outside."
  },
  {
   "property": "C67",
   "status": "partial",
   "theorems": [
    "C67_tags",
    "C67_version",
    "C67_origin_refuted"
   ],
   "note": "True for all keywords except ORIGIN and CREATOR, which are dropped (refutation for all inputs)."
  },
  {
   "property": "C68",
   "status": "proved",
   "theorems": [
    "C68_check",
    "C68_errors",
    "C68_pairwise"
   ],
   "note": ""
  },
  {
   "property": "C69",
   "status": "proved",
   "theorems": [
    "C69_unknown_keyword",
    "C69_unknown_keyword_sequence",
    "C69_sequence_value_error"
   ],
   "note": ""
  },
  {
   "property": "C70",
   "status": "partial",
   "theorems": [
    "C70_quality",
    "C70_l1",
    "C70_l1_ok",
    "C70_open_fraction",
    "C70_dims_refused",
    "C70_l2_upper",
    "C70_l2_normal",
    "C70_l2_lower_partial",
    "C70_l2_default",
    "C70_l2_negative_refuted",
    "C70_support"
   ],
   "note": "False for L2 with deep bars: the projected shadow is not limited, so the probability becomes negative. Proved: exactly when, and not for the default dimensions. Everything else is proved."
  },
  {
   "property": "C71",
   "status": "proved",
   "theorems": [
    "C71_boom",
    "C71_new_column"
   ],
   "note": "The intersections of the rods with the rays are arguments; rods do not move photons."
  },
  {
   "property": "C72",
   "status": "partial",
   "theorems": [
    "C72_present_partial",
    "C72_per_photon_output_refuted"
   ],
   "note": "False for the unchanged code as claimed: proved that every such call raises when a declared column is missing. Proved for photon lists that have the declared columns already (and elements without local coordinate and id columns): every value is stored for its photon, the probability is multiplied and the position is the intersection point."
  },
  {
   "property": "C73",
   "status": "partial",
   "theorems": [
    "C73_early_partial",
    "C73_missed_partial",
    "C73_exception_atomic_refuted"
   ],
   "note": "False for the unchanged code: witness. What holds: if the element's own function raises or an array has the wrong length nothing is changed, and in all cases photons that are not hit keep their values, no photon is lost and columns are only added."
  },
  {
   "property": "C74",
   "status": "partial",
   "theorems": [
    "C74_layers",
    "C74_exactly",
    "C74_missing_keywords_refuted"
   ],
   "note": "True for lists of equal length; otherwise layers are dropped (refutation)."
  },
  {
   "property": "C75",
   "status": "partial",
   "theorems": [
    "C75_energy",
    "C75_exactly",
    "C75_empty_refuted"
   ],
   "note": "The bound holds for all pairs; an empty photon list raises (refutation)."
  },
  {
   "property": "C76",
   "status": "partial",
   "theorems": [
    "C76_keywords_refuted",
    "C76_matrix_uses_them"
   ],
   "note": "False: the keywords are accepted and ignored; the matrix function itself uses them."
  },
  {
   "property": "C77",
   "status": "partial",
   "theorems": [
    "C77_steps_refuted",
    "C77_steps_partial"
   ],
   "note": "The code runs the steps on all photons once per aperture (C77_steps_refuted); C77_steps_partial says what it does do."
  },
  {
   "property": "C78",
   "status": "proved",
   "theorems": [
    "C78_turned",
    "C78_blaze_negative"
   ],
   "note": ""
  },
  {
   "property": "C79",
   "status": "proved",
   "theorems": [
    "C79_blaze"
   ],
   "note": "Without blaze_angle_modifier, which subclasses add to the result."
  },
  {
   "property": "C80",
   "status": "proved",
   "theorems": [
    "C80_center",
    "C80_rotation",
    "C80_parallel_rays",
    "C80_crossing"
   ],
   "note": "One photon that hits. Rays exactly along the line center - hit position have no rotation axis (nan)."
  },
  {
   "property": "C81",
   "status": "proved",
   "theorems": [
    "C81_peak",
    "C81_fwhm",
    "C81_range"
   ],
   "note": "Interpolation in the files is not modelled, its results are arguments."
  },
  {
   "property": "C82",
   "status": "partial",
   "theorems": [
    "C82_round_trip_partial",
    "C82_normal_of_point_partial",
    "C82_top_wrong",
    "C82_round_trip_refuted",
    "C82_no_intersectvalid_fails",
    "C82_off_torus"
   ],
   "note": "False on the top and bottom circles (cos theta = 0, sign 0) and, for r >= 2 R, on part of the inner side. intersectvalid=False is a TypeError."
  },
  {
   "property": "C83",
   "status": "partial",
   "theorems": [
    "C83_focus_and_grating_on_circle",
    "C83_focus_on_axis",
    "C83_always_defined",
    "C83_center_on_line_partial",
    "C83_center_on_line_refuted"
   ],
   "note": "The claim about the center of the torus in the docstring holds only for beta = 2 alpha; the other claims are proved."
  },
  {
   "property": "C84",
   "status": "proved",
   "theorems": [
    "C84_channel_circles",
    "C84_shared_circle"
   ],
   "note": ""
  },
  {
   "property": "C85",
   "status": "partial",
   "theorems": [
    "C85_named_channels_partial",
    "C85_axes",
    "C85_third_channel",
    "C85_any_number_refuted"
   ],
   "note": "Only the names 1, 2, 1m, 2m work; other names are an UnboundLocalError or take the torus of the previous channel."
  },
  {
   "property": "C86",
   "status": "proved",
   "theorems": [
    "C86_elements_on_torus",
    "C86_default_axis_keeps_yz",
    "C86_radius_angle"
   ],
   "note": "The root finder is an argument with the contract that a reported root is an exact root."
  },
  {
   "property": "C87",
   "status": "proved",
   "theorems": [
    "C87_radii_cover",
    "C87_brackets_separate"
   ],
   "note": ""
  },
  {
   "property": "C88",
   "status": "partial",
   "theorems": [
    "C88_rows_partial",
    "C88_inside_outer_radius_partial",
    "C88_rows_exact",
    "C88_never_refuted",
    "C88_covers_refuted",
    "C88_symmetric_refuted",
    "C88_no_overlap_partial",
    "C88_no_overlap_refuted"
   ],
   "note": "C88_rows_exact: n rows at - n d / 2 + i d, n the number of pitches that span the diameter. False: the first row is at - n d / 2 (the edge, not the center of the first element). C88_never_refuted: for every radius and pitch the first row has no mirror image and the upper edge is not covered; everything below rout - d is. C88_inside_outer_radius_partial holds. Elements do not overlap where a row does not cross the hole or crosses it at least one pitch away from the axis (C88_no_overlap_partial); otherwise the two halves of a row can overlap (C88_no_overlap_refuted)."
  },
  {
   "property": "C89",
   "status": "proved",
   "theorems": [
    "C89_energies",
    "C89_columns",
    "C89_empty"
   ],
   "note": "Quantities enter through a strip function. Tables are lists of rows."
  },
  {
   "property": "C90",
   "status": "partial",
   "theorems": [
    "C90_split",
    "C90_all_wiggled_partial",
    "C90_subclasses_not_wiggled_refuted",
    "C90_nothing_wiggled"
   ],
   "note": "subclass_ok is not passed on to elements_of_class: objects of derived classes are not wiggled (refutation), so the whole study can run with nothing wiggled. Proved for subclass_ok=False."
  },
  {
   "property": "C91",
   "status": "partial",
   "theorems": [
    "C91_detchans_partial",
    "C91_detchans_refuted"
   ],
   "note": "DETCHANS of the matrix table is its number of rows (energy bins)."
  },
  {
   "property": "C92",
   "status": "partial",
   "theorems": [
    "C92_row_found",
    "C92_row_missing",
    "C92_wavelength",
    "C92_wavelength_refuted"
   ],
   "note": "Wavelengths are never found (proved for all tables with positive energies): the converted bounds are in reverse order. Assumes the documented behaviour of astropy that the second operand of a comparison is converted to the unit of the first."
  },
  {
   "property": "C93",
   "status": "proved",
   "theorems": [
    "C93_pairs",
    "C93_once",
    "C93_no_zero"
   ],
   "note": "FileNotFoundError is an argument (which inputs exist); plots are not modelled."
  },
  {
   "property": "C94",
   "status": "proved",
   "theorems": [
    "C94_output_names",
    "C94_input_names",
    "C94_output_not_input",
    "C94_total"
   ],
   "note": "For file names built from integer ORDER (input) and the text TRUEORD / CCDORDER that apply_osip writes."
  },
  {
   "property": "C95",
   "status": "partial",
   "theorems": [
    "C95_few_partial",
    "C95_many_partial",
    "C95_twenty_refuted",
    "C95_order_zero"
   ],
   "note": "False at the boundary: with exactly 20 photons the result is nan (\"> 20\" instead of \">= 20\"). Proved for fewer than 20 and more than 20."
  },
  {
   "property": "C96",
   "status": "proved",
   "theorems": [
    "C96_worst_case"
   ],
   "note": "nan counts as worst (np.argmin)."
  },
  {
   "property": "C97",
   "status": "proved",
   "theorems": [
    "C97_sum",
    "C97_total",
    "C97_resolving_power",
    "C97_no_order_zero",
    "C97_detected_only",
    "C97_ccd",
    "C97_all"
   ],
   "note": "The sums are proved for all photon lists."
  },
  {
   "property": "C98",
   "status": "partial",
   "theorems": [
    "C98_rows_partial",
    "C98_plane_changed_refuted"
   ],
   "note": "The rows are proved; false that the plane is unchanged: facet_table renames the output columns of the plane that is passed in (and of the shared default plane)."
  },
  {
   "property": "C99",
   "status": "proved",
   "theorems": [
    "C99_project"
   ],
   "note": "For planes with perpendicular axes."
  },
  {
   "property": "C100",
   "status": "proved",
   "theorems": [
    "C100_shift",
    "C100_zero",
    "C100_similar",
    "C100_order"
   ],
   "note": "C100_similar: scaling and shifting all positions scales the width. C100_order: the order of photons does not matter."
  },
  {
   "property": "C101",
   "status": "proved",
   "theorems": [
    "C101_fraction",
    "C101_value"
   ],
   "note": "C101_value gives the fraction as a sum of probabilities."
  },
  {
   "property": "C102",
   "status": "proved",
   "theorems": [
    "C102_valid",
    "C102_idempotent",
    "C102_accepted"
   ],
   "note": "matplotlib's converter is an argument."
  },
  {
   "property": "C103",
   "status": "proved",
   "theorems": [
    "C103_faces",
    "C103_once",
    "C103_points",
    "C103_strip"
   ],
   "note": "See the theorems: everything claimed is proved for the model."
  },
  {
   "property": "C104",
   "status": "proved",
   "theorems": [
    "C104_half",
    "C104_other",
    "C104_full",
    "C104_faces",
    "C104_cycle",
    "C104_sides",
    "C104_two_triangles"
   ],
   "note": "Faces are checked for the corner list of the code."
  },
  {
   "property": "C105",
   "status": "partial",
   "theorems": [
    "C105_per_ray_partial",
    "C105_per_point_refuted",
    "C105_wrong_color_refuted"
   ],
   "note": "False for one color per point: scalar[0, :] should be scalar[:, 0]; IndexError if n is not N, else wrong colors. Proved for no color and one color per ray."
  },
  {
   "property": "C106",
   "status": "proved",
   "theorems": [
    "C106_material"
   ],
   "note": "See the theorems: everything claimed is proved for the model."
  },
  {
   "property": "C107",
   "status": "partial",
   "theorems": [
    "C107_only_partial",
    "C107_container_refuted",
    "C107_photons_refuted",
    "C107_materialspec_refuted"
   ],
   "note": "False: plot_obj is not defined, photons.meta() and data['runinfo'] on a list are TypeErrors, matdict[v] uses an undefined name. Proved which inputs can be written: containers without elements, files without photons, materials without properties, and no others."
  },
  {
   "property": "C108",
   "status": "partial",
   "theorems": [
    "C108_rod_refuted",
    "C108_across_partial"
   ],
   "note": "False: the Cylinder geometry has its axis along z, so the long zoom makes an elliptical tube and rays along z pass through the rod. What holds: rays at right angles to both axes that come from outside are found if and only if they pass through the surface of the rod (the reported point is on the tube, not on the rod)."
  },
  {
   "property": "C109",
   "status": "partial",
   "theorems": [
    "C109_count",
    "C109_positions",
    "C109_sides",
    "C109_four_partial",
    "C109_three_battens",
    "C109_three_diagonals_refuted",
    "C109_four_dims_refuted",
    "C109_three_mirror"
   ],
   "note": "Proved for four sides if l_diag is the length of the diagonal; false for other dimensions (angle 34.03 degrees and l_diag are fixed)."
  },
  {
   "property": "C110",
   "status": "partial",
   "theorems": [
    "C110_filter",
    "C110_refused",
    "C110_nan_refuted"
   ],
   "note": "nan from a filter function is not refused, everything else is proved."
  },
  {
   "property": "C111",
   "status": "partial",
   "theorems": [
    "C111_baffle_refuted",
    "C111_edges"
   ],
   "note": "False: the drawing uses v_x and v_y, but the plane is spanned by v_y and v_z."
  },
  {
   "property": "C112",
   "status": "proved",
   "theorems": [
    "C112_cells",
    "C112_unique",
    "C112_rows"
   ],
   "note": "Proved if values that are close are equal."
  },
  {
   "property": "C113",
   "status": "proved",
   "theorems": [
    "C113_dir",
    "C113_onaxis",
    "C113_angles"
   ],
   "note": "Everything claimed is proved."
  },
  {
   "property": "C114",
   "status": "partial",
   "theorems": [
    "C114_pol",
    "C114_pole",
    "C114_lefthanded_refuted",
    "C114_lefthanded"
   ],
   "note": "Proved for right-handed reference transformations (proper rotations). For left-handed ones the angle runs from North through West: C114_lefthanded_refuted (a case) and C114_lefthanded (all of them)."
  },
  {
   "property": "C115",
   "status": "partial",
   "theorems": [
    "C115_onaxis",
    "C115_rigid",
    "C115_anywhere",
    "C115_reference_partial",
    "C115_reference_refuted"
   ],
   "note": "False with a reference_transform that moves the optical axis: the jitter axis stays in the y-z plane. Proved: for the default orientation the deflection is the drawn angle; for a pointing with any reference_transform this holds for all draws if and only if the optical axis is the x axis (C115_reference_partial); photons from anywhere are deflected by at most the drawn angle (C115_anywhere); rigidity for all."
  },
  {
   "property": "C116",
   "status": "partial",
   "theorems": [
    "C116_times",
    "C116_energy_table",
    "C116_first_ignored",
    "C116_first_pol_refuted",
    "C116_first_pol_partial",
    "C116_other_energies",
    "C116_other_pol",
    "C116_unpolarized",
    "C116_photons"
   ],
   "note": "False only for the table of polarization angles: a negative first density, documented as ignored, is refused. SourceSpecificationError is shown as its base class Exception."
  },
  {
   "property": "C117",
   "status": "partial",
   "theorems": [
    "C117_disk",
    "C117_spherical",
    "C117_distance_partial",
    "C117_distance_refuted"
   ],
   "note": "The drawn radii are right, but the position is (d sin phi, d cos phi) in longitude and latitude, so the distance is smaller than d away from the main directions. Proved: distance at most d for d up to 90 degrees."
  },
  {
   "property": "C118",
   "status": "partial",
   "theorems": [
    "C118_cone_partial",
    "C118_cone_refuted",
    "C118_farlab"
   ],
   "note": "False for cones along +z or -z: the rotation axis is the zero vector and all directions are nan."
  },
  {
   "property": "C119",
   "status": "partial",
   "theorems": [
    "C119_F_partial",
    "C119_F_refuted",
    "C119_gauss"
   ],
   "note": "False for SymbolFSource with coordinates that are not ICRS: the transformation to ICRS is applied twice."
  },
  {
   "property": "C120",
   "status": "partial",
   "theorems": [
    "C120_distance_partial",
    "C120_back",
    "C120_steps",
    "C120_farlab_refuted"
   ],
   "note": "Distance proved for unit directions; the far laboratory source makes directions that are not, and its photons move too far."
  },
  {
   "property": "C121",
   "status": "proved",
   "theorems": [
    "C121_bound",
    "C121_period",
    "C121_phase",
    "C121_quarter"
   ],
   "note": "Proved for LissajousDither.dither."
  },
  {
   "property": "C122",
   "status": "partial",
   "theorems": [
    "C122_pointing",
    "C122_direction_partial",
    "C122_no_dither_partial",
    "C122_roll_refuted",
    "C122_roll_error",
    "C122_empty_refuted",
    "C122_reference_refuted",
    "C122_write_asol_refuted"
   ],
   "note": "Proved for constant roll and no reference transformation; a dithered roll is an UnboundLocalError, an empty list an IndexError, the reference transformation is ignored and write_asol is always an AttributeError."
  },
  {
   "property": "C123",
   "status": "partial",
   "theorems": [
    "C123_frame",
    "C123_axes_partial",
    "C123_axes_refuted"
   ],
   "note": "The pattern is turned by twice the roll in the spacecraft frame, so the claim holds only for sin roll = 0."
  },
  {
   "property": "C124",
   "status": "proved",
   "theorems": [
    "C124_isometry",
    "C124_range",
    "C124_disjoint",
    "C124_unknown",
    "C124_exact"
   ],
   "note": "Proved for all ten chips."
  },
  {
   "property": "C125",
   "status": "partial",
   "theorems": [
    "C125_corners",
    "C125_fourth_corner",
    "C125_pixels",
    "C125_chip_pixel",
    "C125_init_partial",
    "C125_offset_refuted"
   ],
   "note": "Chips, pixels and aimpoint are proved; any further keyword such as DetOffsetX makes the constructor fail (kwargs.pop with a list as key)."
  },
  {
   "property": "C126",
   "status": "partial",
   "theorems": [
    "C126_rotation",
    "C126_sky_partial",
    "C126_sky_turned_refuted",
    "C126_sky_refuted"
   ],
   "note": "SKY coordinates turn by the roll angle in the wrong sense: true for sin roll = 0, turned by 2 roll otherwise."
  },
  {
   "property": "C127",
   "status": "partial",
   "theorems": [
    "C127_kept",
    "C127_times",
    "C127_present",
    "C127_values",
    "C127_twice",
    "C127_success_partial",
    "C127_events_refuted",
    "C127_write_evt_refuted",
    "C127_default_refuted",
    "C127_observation_refuted",
    "C127_end",
    "C127_rename"
   ],
   "note": "Existing keywords, times and idempotence are proved for content other than events; event headers, the default arguments and write_evt always fail, and the keywords of complete_O are never added."
  },
  {
   "property": "C128",
   "status": "partial",
   "theorems": [
    "C128_letters",
    "C128_permutation",
    "C128_pairs",
    "C128_radec",
    "C128_expected",
    "C128_sorted",
    "C128_defined_partial",
    "C128_return_refuted"
   ],
   "note": "The calculated order is proved; the last line calls the table, so that sort_columns always raises TypeError."
  },
  {
   "property": "C129",
   "status": "partial",
   "theorems": [
    "C129_pixels_partial",
    "C129_hit",
    "C129_elliptic_refuted"
   ],
   "note": "Circular tubes are proved; on an elliptic tube pixel numbers are not lengths."
  },
  {
   "property": "C130",
   "status": "partial",
   "theorems": [
    "C130_gradient",
    "C130_side_partial",
    "C130_other_side_refuted",
    "C130_refuted",
    "C130_bar",
    "C130_groove_refuted"
   ],
   "note": "Linear change is proved; the tilt is added to an absolute angle, so it is right for rays from one side only; the gradient is along the first local axis, which is across the bars only for groove angle 0."
  },
  {
   "property": "C131",
   "status": "proved",
   "theorems": [
    "C131_reformat",
    "C131_again",
    "C131_short_row",
    "C131_tilt",
    "C131_shipped"
   ],
   "note": "Full for budgets whose rows have a fourth entry. A seventh number (largest bar tilt, not a standard deviation) is divided by 3 as well (C131_tilt). C131_shipped checks the shipped budget row by row."
  },
  {
   "property": "C132",
   "status": "partial",
   "theorems": [
    "C132_sets",
    "C132_attribute",
    "C132_mismatch",
    "C132_rotation",
    "C132_compensated_partial",
    "C132_refuted"
   ],
   "note": "The claim that tilt and rotation cancel is false for blaze angles of the sign of the mirrored channels, where the tilt counts twice (C132_refuted), because the blaze angle is made positive before the tilt is added; true for tilts not larger than a positive blaze angle (C132_compensated_partial). If the number of gratings does not fit, the elements have been moved already (C132_mismatch)."
  },
  {
   "property": "C133",
   "status": "partial",
   "theorems": [
    "C133_gaps",
    "C133_order",
    "C133_gap_positions",
    "C133_groups_refuted",
    "C133_offsets",
    "C133_number"
   ],
   "note": "Positions, order, clearances and different gap positions are proved. The documented grouping 3-2-3 is false: from the middle out the chips are in groups of 2, 3 and 3 (C133_groups_refuted)."
  },
  {
   "property": "C134",
   "status": "partial",
   "theorems": [
    "C134_surface",
    "C134_default_partial",
    "C134_refuted"
   ],
   "note": "True if the configuration is the default one (C134_default_partial); for others the radius is still taken from the default configuration (C134_refuted)."
  },
  {
   "property": "C135",
   "status": "partial",
   "theorems": [
    "C135_effect_partial",
    "C135_refuted",
    "C135_default",
    "C135_unknown",
    "C135_not_reformatted"
   ],
   "note": "True unless a row for the petals follows a row for the windows, which makes new windows without misalignment (C135_refuted). The order in the budget of the module is fine (C135_default). individual_with_tilt is an argument of the model of the dispatch."
  },
  {
   "property": "C136",
   "status": "proved",
   "theorems": [
    "C136_axes",
    "C136_radius",
    "C136_channel"
   ],
   "note": "Proved over the reals with the mirror table as argument."
  },
  {
   "property": "C137",
   "status": "partial",
   "theorems": [
    "C137_covers_partial",
    "C137_unknown",
    "C137_height",
    "C137_max",
    "C137_min",
    "C137_grid",
    "C137_offset_refuted"
   ],
   "note": "The rectangle is centered on the optical axis in x, so the claim holds if the centers of the mirrors are symmetric in x (C137_covers_partial); a mirror off to one side can be outside (C137_offset_refuted). The grid is proved without this."
  },
  {
   "property": "C138",
   "status": "partial",
   "theorems": [
    "C138_once_partial",
    "C138_missed",
    "C138_mounting",
    "C138_many_refuted"
   ],
   "note": "True for up to 1000 mirrors in a channel (C138_once_partial); with more, the ids of channel 1 run into those of channel 2 (C138_many_refuted)."
  },
  {
   "property": "C139",
   "status": "partial",
   "theorems": [
    "C139_general",
    "C139_placed",
    "C139_partition",
    "C139_windows_sorted",
    "C139_centers",
    "C139_ids_partial",
    "C139_ids_refuted"
   ],
   "note": "Positions, axes, periods, centers of windows and petals and the partition in windows are proved; the ids are those of the table only if the gratings of a window are numbered without gaps (C139_ids_partial, C139_ids_refuted)."
  },
  {
   "property": "C140",
   "status": "partial",
   "theorems": [
    "C140_crosses_partial",
    "C140_mirror",
    "C140_evanescent",
    "C140_axis_refuted",
    "C140_period",
    "C140_tilted_partial",
    "C140_tilted_refuted"
   ],
   "note": "True for optical axes not at x = 0 (C140_crosses_partial); for an axis at x = 0 np.sign is 0 and the answer is always false (C140_axis_refuted). With the foreshortened period the sine of the deflection by a tilted grating is right up to the second order (C140_tilted_partial, with the exact difference) and never exact for rays that are deflected (C140_tilted_refuted)."
  },
  {
   "property": "C141",
   "status": "partial",
   "theorems": [
    "C141_columns",
    "C141_never_negative",
    "C141_mirror_and_grating",
    "C141_channels",
    "C141_header",
    "C141_count_bound",
    "C141_configuration_refuted"
   ],
   "note": "The columns are proved. The check of channels is made with the default configuration, so a channel of another configuration is refused with ValueError (C141_configuration_refuted). The column ONCCD is a count, not a transmission in 0..1."
  },
  {
   "property": "C142",
   "status": "proved",
   "theorems": [
    "C142_missing",
    "C142_name",
    "C142_injective"
   ],
   "note": "Proved; readers of files are arguments."
  },
  {
   "property": "C143",
   "status": "proved",
   "theorems": [
    "C143_defaults",
    "C143_pointing",
    "C143_load_number"
   ],
   "note": "Proved; the reader of the jitter file is an argument."
  },
  {
   "property": "C144",
   "status": "partial",
   "theorems": [
    "C144_columns",
    "C144_model",
    "C144_parameters",
    "C144_normalised",
    "C144_whole_line",
    "C144_incomplete",
    "C144_other_columns_refuted",
    "C144_digit"
   ],
   "note": "Proved: the model, parameters, norm, and integral over the whole line; failure without EE_FRACS or components. Refuted (C144_other_columns_refuted): the expressions are not anchored, so a column GAUSS1_PARMS_ERR counts as a component."
  },
  {
   "property": "C145",
   "status": "partial",
   "theorems": [
    "C145_round_trip_partial",
    "C145_whole_model",
    "C145_whole_model_refuted"
   ],
   "note": "Proved for the sum of the components (C145_round_trip_partial). For the whole model the claim is false: sherpa2caldb always raises Exception because of the EE_FRACS factor (C145_whole_model)."
  },
  {
   "property": "C146",
   "status": "partial",
   "theorems": [
    "C146_nodes_partial",
    "C146_absolute_values",
    "C146_negative_position_refuted",
    "C146_several_widths",
    "C146_square_transposed",
    "C146_several_widths_refuted",
    "C146_unit_ignored"
   ],
   "note": "Proved for tables with one width and no negative numbers (C146_nodes_partial); interpolators are arguments that are exact at nodes. False for negative positions (absolute value is taken), several widths (ValueError: RectBivariateSpline gets widths and wavelengths the wrong way round) and square tables (transposed): C146_negative_position_refuted, C146_several_widths_refuted, C146_square_transposed."
  },
  {
   "property": "C147",
   "status": "proved",
   "theorems": [
    "C147_rows",
    "C147_row_sum",
    "C147_keywords",
    "C147_observatory"
   ],
   "note": "Spline and profiles (CDFs of the components) are arguments. Proved in full over the reals."
  },
  {
   "property": "C148",
   "status": "partial",
   "theorems": [
    "C148_accepted",
    "C148_columns",
    "C148_box",
    "C148_names_partial",
    "C148_kind_refuted",
    "C148_same_columns_refuted",
    "C148_tuples"
   ],
   "note": "Proved: acceptance, columns, shapes, box for ascending wavelengths, recognised names for GAUSSn/LORENTZn. Refuted: kind is not compared to the name (C148_kind_refuted); models from a table get _PARMS_PARMS columns (C148_same_columns_refuted)."
  },
  {
   "property": "C149",
   "status": "partial",
   "theorems": [
    "C149_counts",
    "C149_bin",
    "C149_errors",
    "C149_range_refuted",
    "C149_range_partial"
   ],
   "note": "The histogram, its bins and errors are proved. Refuted (C149_range_refuted): np.arange drops the end of the range, so photons less than d_wave above the mean can be lost. All photons from d_wave below the mean to d_wave less one bin above it are counted (C149_range_partial). The Sherpa fit itself is not modelled."
  },
  {
   "property": "C150",
   "status": "partial",
   "theorems": [
    "C150_surface",
    "C150_tangent",
    "C150_same_rays",
    "C150_shorter",
    "C150_elements",
    "C150_total",
    "C150_mirrored",
    "C150_mirrored_refuted",
    "C150_single_refuted",
    "C150_list"
   ],
   "note": "Proved for gratings without shear that are not mirrored (positive determinant); acceptance (exactly positive radii) for all gratings without shear. Refuted for mirrored gratings: the decomposition turns the normal around but e_x keeps its direction, so the stack is two radii away from where it should be, while its elements are in the right place (C150_mirrored), and for gratings without attribute elements (AttributeError). The display settings and _geometry are not modelled."
  },
  {
   "property": "C151",
   "status": "partial",
   "theorems": [
    "C151_ray",
    "C151_table",
    "C151_center",
    "C151_energy_ignored",
    "C151_energy_refuted",
    "C151_bent_refuted"
   ],
   "note": "Ray, table and center are proved for flat gratings; the optimizer and the ray trace are arguments. Refuted: the energy given to the finder is never used, the test photon has 1 keV; BendNumericalChirpFinder raises AttributeError because Cylinder has no phi_limits."
  },
  {
   "property": "C152",
   "status": "partial",
   "theorems": [
    "C152_nodes",
    "C152_points",
    "C152_list",
    "C152_selector_refuted",
    "C152_bent_refuted"
   ],
   "note": "Nodes, number of points and order selector proved for a spline that passes through its points. Refuted: on a second chirp the order selector of before the first chirp comes back; on a bent grating the first local coordinate is an angle while the nodes are in units of the radius."
  },
  {
   "property": "C153",
   "status": "partial",
   "theorems": [
    "C153_total",
    "C153_ring",
    "C153_ring_empty",
    "C153_hinge",
    "C153_hinge_origin",
    "C153_facets_partial",
    "C153_position",
    "C153_hinge_refuted",
    "C153_arguments_partial",
    "C153_period_of_size",
    "C153_sorted_refuted"
   ],
   "note": "Positions, sizes, groove angles and names proved for rows with orthonormal directions; positions for structures that are only shifted. Structures that are turned are turned around the hinge instead of the origin (C153_position, any position), so the hinge does change where their facets are (C153_hinge_refuted). Size goes by the ring in the first column, period by the number of the row: they agree for the 336 rows of the file (proved), refuted for tables sorted in another way; for a table with another number of rows every facet gets the whole list of periods. The numbers in the file itself are not in the model, only its column of rings."
  },
  {
   "property": "C154",
   "status": "proved",
   "theorems": [
    "C154_grooves",
    "C154_angle",
    "C154_dispersion"
   ],
   "note": "Orientation of the groove lines of a facet, its angle to the dispersion direction and the direction of dispersion are proved for all rows of the table with two perpendicular unit vectors."
  },
  {
   "property": "C155",
   "status": "partial",
   "theorems": [
    "C155_numbers",
    "C155_rings",
    "C155_disjoint",
    "C155_area",
    "C155_hit",
    "C155_focus",
    "C155_on_axis",
    "C155_position_partial",
    "C155_position_refuted"
   ],
   "note": "All claims on aperture and focus are proved (scatter is an argument). Refuted: position and zoom given by the user are always replaced, and pos4d is not accepted."
  },
  {
   "property": "C156",
   "status": "partial",
   "theorems": [
    "C156_apertures",
    "C156_number",
    "C156_serial_partial",
    "C156_serial_refuted",
    "C156_display_partial",
    "C156_display_refuted",
    "C156_table"
   ],
   "note": "Serial numbers are replaced by offset + position (MultiAperture overwrites id_num): with the default offset 0 the rings are 0..11 and not 1..12 (refuted); proved equal for offset 1 only. Drawing factors need two or more shells: with one shell the 0 is lost, with none the setup is an IndexError."
  },
  {
   "property": "C157",
   "status": "partial",
   "theorems": [
    "C157_rule",
    "C157_shell_partial",
    "C157_shell_refuted"
   ],
   "note": "The rule by number in the photon list is proved. Together with the default numbering of the apertures (from 0) the first shell gets no factor and every other one that of its inner neighbour (refuted for the default, proved for id_num_offset=1). interp1d is an argument."
  },
  {
   "property": "C158",
   "status": "proved",
   "theorems": [
    "C158_config",
    "C158_history",
    "C158_shared",
    "C158_sector",
    "C158_colour"
   ],
   "note": "Positions from the mesh search are an argument (see C88 for the search)."
  },
  {
   "property": "C159",
   "status": "partial",
   "theorems": [
    "C159_accepted",
    "C159_made",
    "C159_position_refuted",
    "C159_lynx_refuted",
    "C159_athena_refuted",
    "C159_shipped_refuted",
    "C159_without_range",
    "C159_detector_refuted",
    "C159_axis"
   ],
   "note": "Accepted keywords are proved in both directions (without position keywords for the converse). Position keywords are accepted but lost: Parallel.__init__ consumes them, OpticalElement.__init__ then makes a second geometry at the origin (refuted). Lynx (x_range) and Athena (opt_range) can not be made from their own default configuration, nor can their detector arrays (torus passed as positional argument); AXIS can."
  },
  {
   "property": "C160",
   "status": "partial",
   "theorems": [
    "C160_axis",
    "C160_lynx_refuted",
    "C160_subclasses",
    "C160_align_refuted",
    "C160_row",
    "C160_kinds",
    "C160_default",
    "C160_last",
    "C160_budget",
    "C160_copy_refuted"
   ],
   "note": "Lynx and Athena look for elements whose class is exactly CATGrating, there are none in a stack: nothing is chirped (refuted); AXIS chirps all; with subclasses the L1 structures would be chirped, too (C160_subclasses). Misalignment makes new elements, so chirp and colors are lost (refuted). Copies of the configuration made before the budget is entered do not have it (refuted). Misalignments can be applied to every structure that can be built (C160_default); only the last of several global rows for one structure counts (C160_last)."
  },
  {
   "property": "C161",
   "status": "proved",
   "theorems": [
    "C161_surface",
    "C161_circle",
    "C161_focus"
   ],
   "note": "Trigonometry is that of the reals; limits on the angle are those of angle_between (C10)."
  },
  {
   "property": "C162",
   "status": "partial",
   "theorems": [
    "C162_circ_partial",
    "C162_projection",
    "C162_unknown",
    "C162_radius_refuted"
   ],
   "note": "True when conf is the configuration whose radius the detector has. PerfectArcus.add_detectors takes the radius of the module's default configuration, zeropos that of conf: with another radius the axis is not at this angle (refuted). The axis must be within the radius, the channel offset at most 20 mm."
  },
  {
   "property": "C163",
   "status": "proved",
   "theorems": [
    "C163_channel",
    "C163_areas",
    "C163_channel_area",
    "C163_resolving_power",
    "C163_checked",
    "C163_total",
    "C163_missing"
   ],
   "note": "Effective area and resolving power are those of C99 and C101 restricted to the channel."
  },
  {
   "property": "C164",
   "status": "partial",
   "theorems": [
    "C164_rows",
    "C164_areas_partial",
    "C164_resolving",
    "C164_list_refuted",
    "C164_header",
    "C164_orders_partial",
    "C164_orders_refuted",
    "C164_orders_read",
    "C164_csv"
   ],
   "note": "For orders given as numpy array. With a list, as documented, 'orders != 0' is the constant True and the dispersed columns become columns per order that include the zeroth (refuted). Orders are read back when the header has no further keyword that begins with ORDER_ (refuted otherwise). C164_header: the other keywords are those of the first simulation."
  },
  {
   "property": "C165",
   "status": "partial",
   "theorems": [
    "C165_angle_partial",
    "C165_zero_partial",
    "C165_outside",
    "C165_quarter",
    "C165_cross_refuted",
    "C165_conf_refuted",
    "C165_length_refuted"
   ],
   "note": "tg_r is the inscribed angle and 0 for the zeroth order. tg_d of the zeroth order is not 0, since circ_y has the opposite sign (refuted); the zero position comes from the module's configuration, not from the argument (refuted); the length that turns the offset into an angle is not the distance to the grating (refuted)."
  },
  {
   "property": "C166",
   "status": "partial",
   "theorems": [
    "C166_perpendicular",
    "C166_focus_partial",
    "C166_focus_std_partial",
    "C166_behind_refuted",
    "C166_old_refuted",
    "C166_side_effect_refuted",
    "C166_place_refuted"
   ],
   "note": "Minimization by scipy is an argument that is only assumed to return a minimum. A try behind all photons fails with KeyError (refuted), photons that miss keep the coordinates of an earlier detector (refuted), the photon list is not changed although the documentation says so (refuted). Points further than 1e5 from the axis of the detector are not covered. C166_place_refuted says the same for each photon."
  },
  {
   "property": "C167",
   "status": "partial",
   "theorems": [
    "C167_orders",
    "C167_power",
    "C167_inverse_refuted",
    "C167_zero",
    "C167_zero_refuted"
   ],
   "note": "Sigma clipping, tracing and detectors are arguments. The documented 'FWHM / position' is the inverse of what is returned (refuted). Photons with probability 0 take part in the zero position for a detector that is passed in but not for the torus (refuted)."
  },
  {
   "property": "C168",
   "status": "partial",
   "theorems": [
    "C168_cone_partial",
    "C168_outside_refuted"
   ],
   "note": "np.percentile is an argument. The plane must lie between mirror and focal point: further out the function fails or gives nan (refuted)."
  },
  {
   "property": "C169",
   "status": "partial",
   "theorems": [
    "C169_range_partial",
    "C169_different",
    "C169_opposite",
    "C169_zero",
    "C169_negative_refuted"
   ],
   "note": "The color map is an argument. A negative maximum gives two colors less than needed (refuted)."
  },
  {
   "property": "C170",
   "status": "partial",
   "theorems": [
    "C170_square",
    "C170_circle",
    "C170_ring",
    "C170_displays",
    "C170_photons",
    "C170_triangles",
    "C170_two_rings",
    "C170_rectangle_refuted",
    "C170_range_refuted",
    "C170_narrow_refuted",
    "C170_rectangle"
   ],
   "note": "False: a rectangular aperture with r_inner > 0 raises NotImplementedError when drawn; a range of angles between 2 pi and 2 pi + 1e-6 passes the check but is drawn as an almost closed hole; a wedge between two vertices is drawn closed."
  },
  {
   "property": "C171",
   "status": "partial",
   "theorems": [
    "C171_own",
    "C171_groove_angle",
    "C171_leak_partial",
    "C171_order_refuted"
   ],
   "note": "False: PlaneWithHole writes r_inner to the dictionary of the class before it is copied, so all geometries made later have the r_inner of the last hole. Own attributes are right, and the groove angle does not leak."
  },
  {
   "property": "C172",
   "status": "proved",
   "theorems": [
    "C172_dispersion",
    "C172_passes",
    "C172_blocked",
    "C172_probability",
    "C172_bound",
    "C172_scatter",
    "C172_airy",
    "C172_straight"
   ],
   "note": "Polarization left out; the value of the Si transmission table and the efficiency table are arguments. Findings: with deep L2 bars the probability can be negative (C70), so the bound is for the default L2 dimensions; wavelengths larger than the hole give nan."
  },
  {
   "property": "C173",
   "status": "partial",
   "theorems": [
    "C173_layers",
    "C173_accepts",
    "C173_ignored",
    "C173_tilt_refuted"
   ],
   "note": "Finding: d_blaze_mm and blaze_center, which the first layer understands, cannot be set through the stack (ValueError). preprocess_steps and postprocess_steps are accepted but never run because OpticalElement.__call__ comes first. Keyword geometry not modelled."
  },
  {
   "property": "C174",
   "status": "partial",
   "theorems": [
    "C174_angle",
    "C174_onto",
    "C174_zero",
    "C174_order",
    "C174_range_refuted"
   ],
   "note": "Finding: the changed angle can be negative although blaze angles are between 0 and pi/2 (C79); the interpolated table itself is an argument."
  },
  {
   "property": "C175",
   "status": "partial",
   "theorems": [
    "C175_image",
    "C175_scale",
    "C175_missed",
    "C175_pixel",
    "C175_onaxis",
    "C175_offaxis",
    "C175_flat_refuted"
   ],
   "note": "Also C175_missed: photons beside the lens are left as they are."
  },
  {
   "property": "C176",
   "status": "proved",
   "theorems": [
    "C176_photons",
    "C176_polarization"
   ],
   "note": "The instrument that follows is not part of the property (C175 for a telescope). Random angles are arguments."
  },
  {
   "property": "C177",
   "status": "partial",
   "theorems": [
    "C177_position",
    "C177_linear",
    "C177_factor",
    "C177_tested_light",
    "C177_range",
    "C177_peak_range",
    "C177_unit",
    "C177_unit_refuted",
    "C177_keywords",
    "C177_missing"
   ],
   "note": "The reflectivity file is interpolated linearly at X = y + |v_y| (C177_position, C177_linear), the factor is the Gaussian of C81 with the peak divided by the tested fraction (C177_factor), which gives back the measured reflectivity for light polarized as in the test (C177_tested_light), and is a probability under the stated condition, which is necessary at the peak (C177_range, C177_peak_range). False: the energies of the polarization file are divided by 1000 and so have to be in eV, not in keV as the docstring says (C177_unit, C177_unit_refuted). A user who gives elements or keywords gets a TypeError, missing file names a KeyError (C177_keywords, C177_missing). Reading the files themselves is outside of the model."
  },
  {
   "property": "C178",
   "status": "partial",
   "theorems": [
    "C178_filters",
    "C178_outside",
    "C178_loose",
    "C178_order",
    "C178_variants",
    "C178_sixte_refuted",
    "C178_detmany_refuted"
   ],
   "note": "Also C178_loose: outside of the table with bounds_error=False the value is nan."
  },
  {
   "property": "C179",
   "status": "partial",
   "theorems": [
    "C179_default",
    "C179_given",
    "C179_records",
    "C179_below",
    "C179_between_refuted",
    "C179_reset"
   ],
   "note": "Default geometry, keywords, the recorded coordinates and the reset by 100 mm are proved (C179_default, C179_given, C179_records, C179_reset). False: photons that are detected on the camera between the two optical axes are already below z = 0 and FocalPlaneDet, which comes after the camera, misses them (C179_below, C179_between_refuted). In ArcusForSIXTE, where there is no camera, this does not happen."
  },
  {
   "property": "C180",
   "status": "partial",
   "theorems": [
    "C180_geometry",
    "C180_empty",
    "C180_hits",
    "C180_scatter",
    "C180_focus",
    "C180_miss_refuted"
   ],
   "note": "Geometry, hits, the point in the focal plane for every pair of scatter angles and the common focus on axis are proved (C180_geometry, C180_hits, C180_scatter, C180_focus). False: photons that enter at a large angle (on the 200 mm between aperture and mirror they go sideways by more than a tenth of the largest radius) miss the mirror and go on unchanged with their probability (C180_miss_refuted); the efficiency of the shell is applied to them all the same. An empty table raises ValueError (C180_empty)."
  },
  {
   "property": "C181",
   "status": "proved",
   "theorems": [
    "C181_aperture",
    "C181_covers",
    "C181_elements",
    "C181_channel",
    "C181_focus",
    "C181_onaxis",
    "C181_photon",
    "C181_missed",
    "C181_outside"
   ],
   "note": "One focus for all modules of Athena (C181_elements) and of a channel of Arcus (C181_channel) is C181_focus and C181_onaxis; the aperture covers the modules (C181_aperture, C181_covers) if they have no plates outside of the outer radius and a width below about 0.64 of the largest radius, as in the table of the package; the fate of a photon on exactly one module or on none is C181_photon and C181_missed. Modules with number 10000 and above are not scattered (part of C181_photon). Energies outside of the table of losses stop the simulation (C181_outside)."
  },
  {
   "property": "C182",
   "status": "partial",
   "theorems": [
    "C182_keywords",
    "C182_columns_partial",
    "C182_missing",
    "C182_types_ignored",
    "C182_type_refuted",
    "C182_python_number_refuted"
   ],
   "note": "False as stated: np.can_cast with 'unsafe' is always true, so that columns of any type (text, objects) are accepted (C182_type_refuted, C182_types_ignored), and a keyword that is a python number ends in AttributeError (C182_python_number_refuted). The exact condition for acceptance is C182_columns_partial."
  },
  {
   "property": "C183",
   "status": "partial",
   "theorems": [
    "C183_write",
    "C183_accepted",
    "C183_header_changed",
    "C183_round_trip_partial",
    "C183_round_trip_refuted",
    "C183_read"
   ],
   "note": "False as stated for constant columns, which are kept as keywords: they are written, but come back as python numbers and ARF.read ends in AttributeError (C183_round_trip_refuted). The round trip holds where the three columns are columns (C183_round_trip_partial). The file format itself is astropy's and is an argument."
  },
  {
   "property": "C184",
   "status": "partial",
   "theorems": [
    "C184_data_refuted",
    "C184_write_refuted",
    "C184_read_refuted",
    "C184_checks_partial",
    "C184_header_refuted",
    "C184_rate"
   ],
   "note": "False: __init__ passes itself as data and the data as the argument masked, so that the table has no columns (C184_data_refuted); write and read pass the keyword argument format twice and always fail (C184_write_refuted, C184_read_refuted), after the header was overwritten with that of an ARF (C184_header_refuted). What is true is that missing keywords and columns are reported first (C184_checks_partial)."
  },
  {
   "property": "C185",
   "status": "partial",
   "theorems": [
    "C185_init",
    "C185_write",
    "C185_key",
    "C185_tlmin_needed",
    "C185_columns",
    "C185_round_trip_partial",
    "C185_constant_first_channel_refuted"
   ],
   "note": "False as stated: where F_CHAN is the same in every row and kept as a keyword, write ends in ValueError (C185_constant_first_channel_refuted). The round trip is shown for tables whose required columns are columns (C185_round_trip_partial). The conversion of variable length arrays is C53."
  },
  {
   "property": "C186",
   "status": "partial",
   "theorems": [
    "C186_gaussian",
    "C186_width",
    "C186_size",
    "C186_domain",
    "C186_header",
    "C186_missing_keyword",
    "C186_default",
    "C186_energy_refuted",
    "C186_success_partial"
   ],
   "note": "False as stated for tables with energies: a misspelled keyword argument makes the conversion fail always (C186_energy_refuted). For tables with wavelengths, acceptance is characterised by C186_success_partial and C186_domain; the spline itself is an argument that gives back straight lines."
  },
  {
   "property": "C187",
   "status": "partial",
   "theorems": [
    "C187_period",
    "C187_stops",
    "C187_negative",
    "C187_diffraction",
    "C187_place",
    "C187_chirp_refuted"
   ],
   "note": "False in part: a period that depends on the place is lost (C187_chirp_refuted). The rest is proved for all elements; numpy's normal draws are arguments."
  },
  {
   "property": "C188",
   "status": "proved",
   "theorems": [
    "C188_selectors",
    "C188_stops",
    "C188_error"
   ],
   "note": "Proved for all classes, with the state of the world passed from one call to the next."
  },
  {
   "property": "C189",
   "status": "proved",
   "theorems": [
    "C189_lines",
    "C189_texts",
    "C189_own_axis",
    "C189_no_axis",
    "C189_made",
    "C189_short"
   ],
   "note": "Proved: exactly the right rows, once each, in the right order. Matplotlib is left out: a panel is the list of its lines with the texts and the colour. All rows of a table have the same columns (hypothesis of C189_lines)."
  },
  {
   "property": "C190",
   "status": "partial",
   "theorems": [
    "C190_panels",
    "C190_colour",
    "C190_no_entry",
    "C190_user_refuted",
    "C190_word_refuted",
    "C190_six"
   ],
   "note": "False in part: a colour of the user is overwritten (C190_user_refuted) and the word the code asks for ends in an error (C190_word_refuted). Reading of the file is left out."
  },
  {
   "property": "C191",
   "status": "partial",
   "theorems": [
    "C191_appends",
    "C191_nodes",
    "C191_container",
    "C191_new_scene",
    "C191_shapes",
    "C191_returned_refuted"
   ],
   "note": "False in part: box and surface return nothing (C191_returned_refuted). The rest is proved for all trees; the points of an element come from its geometry (C62 to C66, C103, C104) and the X3D library is left out."
  },
  {
   "property": "C192",
   "status": "proved",
   "theorems": [
    "C192_points",
    "C192_number",
    "C192_digits",
    "C192_exact",
    "C192_transparency"
   ],
   "note": "Proved with exact arithmetic; numpy rounds the product with a power of ten to the nearest even."
  },
  {
   "property": "C193",
   "status": "proved",
   "theorems": [
    "C193_restored",
    "C193_complete",
    "C193_implementations",
    "C193_sheet",
    "C193_last",
    "C193_basename"
   ],
   "note": "Proved; XML and templates of the page are left out, only the files that it asks for are kept."
  },
  {
   "property": "C194",
   "status": "proved",
   "theorems": [
    "C194_connections",
    "C194_values",
    "C194_json",
    "C194_schema",
    "C194_default"
   ],
   "note": "Proved; color maps and the normalization are arguments."
  },
  {
   "property": "C195",
   "status": "partial",
   "theorems": [
    "C195_box",
    "C195_torus",
    "C195_torus_refuted",
    "C195_turned",
    "C195_text_refuted",
    "C195_shapes_refuted"
   ],
   "note": "False in part: the torus is written row after row, the loader reads column after column (C195_torus_refuted), and the backend that writes text does not work at all (C195_text_refuted, C195_shapes_refuted)."
  },
  {
   "property": "C196",
   "status": "proved",
   "theorems": [
    "C196_blend",
    "C196_node",
    "C196_between",
    "C196_total",
    "C196_outside",
    "C196_call",
    "C196_unsorted"
   ],
   "note": "Bilinear interpolation (degree 1, the default); scipy is modelled by that. Tables with two different values within numpy's tolerance are excluded where stated."
  },
  {
   "property": "C197",
   "status": "proved",
   "theorems": [
    "C197_accepted",
    "C197_draw",
    "C197_signs",
    "C197_decrease"
   ],
   "note": "In floating point the sum may differ from 1 by rounding."
  },
  {
   "property": "C198",
   "status": "partial",
   "theorems": [
    "C198_rows",
    "C198_success",
    "C198_total",
    "C198_symmetric",
    "C198_same_as_Gauss_refuted"
   ],
   "note": "Distribution function and the conversion of units are arguments; headers are covered by C185. The refuted part is the question in the source."
  },
  {
   "property": "C199",
   "status": "partial",
   "theorems": [
    "C199_number",
    "C199_text_refuted",
    "C199_table",
    "C199_log",
    "C199_state"
   ],
   "note": "Text of messages is not kept, except for the refuted claim about it."
  },
  {
   "property": "C200",
   "status": "partial",
   "theorems": [
    "C200_both",
    "C200_missed",
    "C200_shipped",
    "C200_lost_refuted",
    "C200_pixel",
    "C200_integer",
    "C200_imaging_refuted"
   ],
   "note": "detect: FlatDetector in the table model of Photons (every cell of the result is described). C200_lost_refuted: with equal names local coordinates overwrite pixels. id_col and dtype not modelled."
  },
  {
   "property": "C201",
   "status": "partial",
   "theorems": [
    "C201_order",
    "C201_exact",
    "C201_shared",
    "C201_needs",
    "C201_perfect",
    "C201_budget_refuted",
    "C201_budget",
    "C201_scale",
    "C201_scale_missing",
    "C201_scale_unchecked_refuted",
    "C201_rowland",
    "C201_stale_refuted"
   ],
   "note": "Elements are names; that elements can be built from a configuration is reduced to the entries they read. C201_budget_refuted, C201_scale_unchecked_refuted and C201_stale_refuted are about things that do not work as one may expect."
  },
  {
   "property": "C202",
   "status": "partial",
   "theorems": [
    "C202_mixture",
    "C202_crossing_refuted",
    "C202_zero",
    "C202_single",
    "C202_all",
    "C202_all_refuted",
    "C202_no_files",
    "C202_sum",
    "C202_outside_refuted"
   ],
   "note": "A plot is the list of its labels and curves. Order 0 is a ZeroDivisionError in python, written ValueError as in Osip_Model. C202_crossing_refuted, C202_all_refuted and C202_outside_refuted state what goes wrong."
  },
  {
   "property": "C203",
   "status": "partial",
   "theorems": [
    "C203_template",
    "C203_names",
    "C203_braces",
    "C203_dollar",
    "C203_readme",
    "C203_outroot_refuted",
    "C203_tags",
    "C203_lines"
   ],
   "note": "string.Template is modelled as an automaton and proved equal to the meaning of the template as a list of text and names. C203_outroot_refuted: the prefix is ignored."
  },
  {
   "property": "C204",
   "status": "proved",
   "theorems": [
    "C204_ray",
    "C204_axis",
    "C204_placed",
    "C204_array"
   ],
   "note": "Finite size of the gratings (points of a flat grating that are not on the torus) and the width of the photon beam are not part of the statement."
  },
  {
   "property": "C205",
   "status": "proved",
   "theorems": [
    "C205_detected",
    "C205_evanescent",
    "C205_resolves"
   ],
   "note": "An order that can not be emitted is not detected (C205_evanescent)."
  },
  {
   "property": "C206",
   "status": "proved",
   "theorems": [
    "C206_number",
    "C206_numeral",
    "C206_no_number",
    "C206_words",
    "C206_corner",
    "C206_all",
    "C206_succeeds",
    "C206_missing",
    "C206_shipped",
    "C206_chip_name"
   ],
   "note": "C206_numeral and C206_no_number say exactly which texts are numbers; C206_words says how any text is split at white space (ASCII characters only)."
  },
  {
   "property": "C207",
   "status": "partial",
   "theorems": [
    "C207_elements",
    "C207_sorted",
    "C207_tags",
    "C207_empty",
    "C207_status",
    "C207_back",
    "C207_round_trip",
    "C207_listed_refuted",
    "C207_listed_partial"
   ],
   "note": "The C function is an argument; C207_listed_refuted: if C shortens the list of valid photons, rows are taken from the start of the array and not from the list (C207_listed_partial for the case that all are valid). A table without rows is a ValueError."
  },
  {
   "property": "C208",
   "status": "partial",
   "theorems": [
    "C208_same_table",
    "C208_same_unchanged",
    "C208_left_local",
    "C208_caller_refuted",
    "C208_polarization_refuted",
    "C208_polarization_partial",
    "C208_positions"
   ],
   "note": "The MARX mirror returns a new table, so the table of the caller stays in local coordinates (C208_caller_refuted) and the polarization of a rotated mirror is transported from a direction in local coordinates (C208_polarization_refuted); right for a mirror that is only shifted (C208_polarization_partial)."
  },
  {
   "property": "C209",
   "status": "partial",
   "theorems": [
    "C209_element",
    "C209_instrument",
    "C209_exact_refuted"
   ],
   "note": "Holds for any number of elements with the bound 1e-8 per element on the polarization. Exact perpendicularity is refuted: parallel transport treats directions within 1e-8 as equal and keeps the vector."
  },
  {
   "property": "C210",
   "status": "proved",
   "theorems": [
    "C210_photon",
    "C210_failure",
    "C210_batches",
    "C210_instrument",
    "C210_straight"
   ],
   "note": "C210_straight gives the effect of filters and detectors."
  },
  {
   "property": "C211",
   "status": "partial",
   "theorems": [
    "C211_grating",
    "C211_misses",
    "C211_to_the_end",
    "C211_probability_refuted"
   ],
   "note": "The condition for nan, and that such a photon never hits again and keeps all columns behind the grating, is proved. The last part is refuted: the probability keeps the value from the order selector."
  },
  {
   "property": "C212",
   "status": "partial",
   "theorems": [
    "C212_sequence_partial",
    "C212_missed",
    "C212_filter",
    "C212_lost",
    "C212_along",
    "C212_sequence_refuted"
   ],
   "note": "C212_lost lists the effect of every kind of layer on photons that have no direction any more."
  },
  {
   "property": "C213",
   "status": "partial",
   "theorems": [
    "C213_position",
    "C213_last_partial",
    "C213_last_refuted",
    "C213_behind_refuted"
   ],
   "note": "C213_position: the position becomes the intersection with the plane; photons that do not meet the plane are left alone. C213_last_partial: position unchanged if the photon is in the plane already. C213_last_refuted and C213_behind_refuted: in general the origin moves, and photons behind the plane are not scattered."
  },
  {
   "property": "C214",
   "status": "partial",
   "theorems": [
    "C214_before",
    "C214_beyond",
    "C214_radial_refuted"
   ],
   "note": "C214_before and C214_beyond for every flat element, except for the part of RadialMirrorScatter perpendicular to the plane of reflection. C214_radial_refuted: that part rotates around the vector from the center to the position of the photon before the scatter, so the result depends on where on the ray the photon is."
  },
  {
   "property": "C215",
   "status": "proved",
   "theorems": [
    "C215_entry",
    "C215_instrument"
   ],
   "note": "C215_entry: pointing and rectangular aperture (cos dec > 0, rotation as reference transform). C215_instrument: with C209, for any number of photons and well-made elements; the polarization is perpendicular up to 1e-8 for each element."
  },
  {
   "property": "C216",
   "status": "partial",
   "theorems": [
    "C216_dimensions",
    "C216_unknown",
    "C216_error_refuted",
    "C216_keyword_refuted",
    "C216_made",
    "C216_defaults",
    "C216_diagonal",
    "C216_diagonal_refuted"
   ],
   "note": "C216_dimensions, C216_made, C216_defaults and C216_diagonal hold. Refuted: unknown dimensions give an AttributeError, because the error message uses self.name before it is set; the documented keyword boom_dims is refused (the code reads boom_dimensions); l_diag is not recalculated when a length is set."
  },
  {
   "property": "C217",
   "status": "partial",
   "theorems": [
    "C217_random",
    "C217_radial",
    "C217_filter",
    "C217_missing_refuted"
   ],
   "note": "C217_random, C217_radial, C217_filter for all dictionaries. C217_missing_refuted: a missing inplanescatter or filterfunc is a KeyError."
  },
  {
   "property": "C218",
   "status": "partial",
   "theorems": [
    "C218_own",
    "C218_single",
    "C218_any",
    "C218_nearest_refuted"
   ],
   "note": "C218_single: nearest class for single inheritance; C218_any: with multiple inheritance some class of the method resolution order that documents the method, if there is one. C218_nearest_refuted: not always the nearest one."
  },
  {
   "property": "C219",
   "status": "partial",
   "theorems": [
    "C219_properties",
    "C219_empty_refuted",
    "C219_geometry_refuted",
    "C219_name"
   ],
   "note": "C219_properties says which properties are set. Refuted: an empty display dictionary falls back to that of the object, and values that DisplayDict looks up in the geometry are not used."
  },
  {
   "property": "C220",
   "status": "proved",
   "theorems": [
    "C220_straight",
    "C220_image",
    "C220_point",
    "C220_sphere"
   ],
   "note": "The rays are followed photon by photon ([through]; C210 shows that photons in a table do not influence each other). Photons that hit the lens in its focal point itself (nan direction) are excluded."
  },
  {
   "property": "C221",
   "status": "proved",
   "theorems": [
    "C221_weights",
    "C221_factor",
    "C221_zero"
   ],
   "note": "Whole tables for any number of elements of all kinds of Instrument_Model, Err cases included."
  },
  {
   "property": "C222",
   "status": "partial",
   "theorems": [
    "C222_element",
    "C222_instrument",
    "C222_random_partial",
    "C222_random_refuted"
   ],
   "note": "Proved for whole tables and all elements of Instrument_Model except RandomGaussianScatter, for which the result is the same only with another number for the azimuth (C222_random_partial: a constant difference per direction, so the distribution is the same); with the same number it is not (C222_random_refuted)."
  },
  {
   "property": "C223",
   "status": "partial",
   "theorems": [
    "C223_malus",
    "C223_crossed",
    "C223_parallel",
    "C223_blocked_refuted"
   ],
   "note": "Two mirrors are run one after the other through the photon model of Instrument_Model. C223_malus, C223_crossed and C223_parallel hold for all positions. Refuted: a photon that was blocked completely has polarization nan and gets probability nan at the next mirror (C223_blocked_refuted)."
  },
  {
   "property": "C224",
   "status": "partial",
   "theorems": [
    "C224_add",
    "C224_undo",
    "C224_reversed",
    "C224_cat_partial",
    "C224_cat_refuted"
   ],
   "note": "C224_add, C224_undo and C224_reversed hold for the sign convention of FlatGrating. For CAT gratings C224_cat_partial says when orders are added and when subtracted; C224_cat_refuted has a case where order 1 after order -1 gives order -2."
  },
  {
   "property": "C225",
   "status": "proved",
   "theorems": [
    "C225_photon",
    "C225_anywhere",
    "C225_flat"
   ],
   "note": "C225_photon for one photon and one element; C225_anywhere for photon lists and any sequence. All errors in this model are ValueError, so the error is the same too. C225_flat shows a filter with a place for which the order matters."
  },
  {
   "property": "C226",
   "status": "partial",
   "theorems": [
    "C226_one_partial",
    "C226_number_partial",
    "C226_grid",
    "C226_behind_refuted",
    "C226_edge_refuted"
   ],
   "note": "Literal claim refuted for elements one behind the other and for elements that touch; proved for elements in one plane that have no common point, with C226_grid as a simple test for this. Baffles are not elements of this kind."
  },
  {
   "property": "C227",
   "status": "partial",
   "theorems": [
    "C227_photon_partial",
    "C227_table_partial",
    "C227_order_refuted"
   ],
   "note": "Literal claim refuted for elements one behind the other; proved for elements in one plane that have no common point, for one photon and for tables."
  },
  {
   "property": "C228",
   "status": "partial",
   "theorems": [
    "C228_parts_partial",
    "C228_longest",
    "C228_no_version",
    "C228_candidate_refuted",
    "C228_no_file_refuted",
    "C228_letters"
   ],
   "note": "Proved for all versions made of digits, dots and dev that end in a digit, with or without hash and date; for any text the version is the longest such start. False: the hash after a release candidate or post release is lost, and without a file with the version (text empty) the match object is None and TagVersion raises AttributeError."
  },
  {
   "property": "C229",
   "status": "partial",
   "theorems": [
    "C229_same_partial",
    "C229_same_refuted"
   ],
   "note": "Proved for the versions of C228. False for release candidates: hash and number of commits are not in the header."
  },
  {
   "property": "C230",
   "status": "partial",
   "theorems": [
    "C230_some_partial",
    "C230_sign",
    "C230_green_refuted",
    "C230_opposite_refuted"
   ],
   "note": "False: the angle is arctan2(y, z), which is the sector around the optical axis for Lynx (axis x), but Athena has its optical axis along z. C230_sign: the color only tells the sign of y; green never occurs, and opposite gratings differ."
  },
  {
   "property": "C231",
   "status": "proved",
   "theorems": [
    "C231_first",
    "C231_some",
    "C231_missed",
    "C231_twice",
    "C231_table"
   ],
   "note": "On elements of Instrument_Model; coordinates on the detector are those of C22 and the pixels are not part of the photon list here."
  },
  {
   "property": "C232",
   "status": "proved",
   "theorems": [
    "C232_line",
    "C232_array",
    "C232_incidence",
    "C232_resolves"
   ],
   "note": "Gratings in the plane of the Rowland circle (azimuth 0). C232_line has the lens and normal incidence, C232_array a whole array of gratings of which the photon hits one, C232_incidence any angle of incidence."
  },
  {
   "property": "C233",
   "status": "proved",
   "theorems": [
    "C233_bound",
    "C233_further_elements",
    "C233_sequence",
    "C233_filter",
    "C233_baffle",
    "C233_batches",
    "C233_numbers"
   ],
   "note": "Proved for instruments of the elements in Instrument_Model. Probabilities have to be numbers at the end (C233_numbers says which elements can make nan of them); sums are over the reals."
  },
  {
   "property": "C234",
   "status": "proved",
   "theorems": [
    "C234_position",
    "C234_spot",
    "C234_width",
    "C234_focus",
    "C234_on_axis"
   ],
   "note": "Proved over the reals for perfect lenses of any focal length other than 0 and photons that hit lens and detector."
  },
  {
   "property": "C235",
   "status": "proved",
   "theorems": [
    "C235_rigid",
    "C235_relative",
    "C235_shifted",
    "C235_in_plane",
    "C235_coordinates",
    "C235_lens",
    "C235_images",
    "C235_roll"
   ],
   "note": "The move is the matrix of moveelem (rotations around the global x, y, z axes through the origin, then the shift). C235_relative excludes random scatterers that are switched on (their directions are drawn in global coordinates); C235_roll takes the x axis as normal and a right-handed frame."
  },
  {
   "property": "C236",
   "status": "proved",
   "theorems": [
    "C236_overlap",
    "C236_nominal",
    "C236_sorted",
    "C236_complete",
    "C236_fixed_width",
    "C236_instrument"
   ],
   "note": "The energy measured by the CCD is any number within the stated distance of the true energy; a window is taken without its end points. Photons on the Rowland circle itself (phi = 0), as in C232_line."
  },
  {
   "property": "C237",
   "status": "proved",
   "theorems": [
    "C237_spot",
    "C237_order_0",
    "C237_stretch",
    "C237_parallel",
    "C237_detector"
   ],
   "note": "Positions on the detector are global coordinates; bounds of grating and detector enter as the premise that the photon hits them before and after the shift."
  },
  {
   "property": "C238",
   "status": "proved",
   "theorems": [
    "C238_order_0",
    "C238_deflection",
    "C238_blaze"
   ],
   "note": "The deflection is stated for photons perpendicular to the grooves; for other photons the grating equation itself is C35."
  },
  {
   "property": "C239",
   "status": "partial",
   "theorems": [
    "C239_point",
    "C239_point_errors",
    "C239_shapes",
    "C239_disk",
    "C239_lost_refuted",
    "C239_cone",
    "C239_far",
    "C239_lab_area_refuted",
    "C239_pointing",
    "C239_pointing_errors",
    "C239_moving_pointings"
   ],
   "note": "Proved for all keyword dictionaries as equivalences (what is given if and only if the object is made) with the error of each failure for point sources and pointings. Conversion of coordinates, isscalar, len, abs and the geometry of FarLabPointSource are arguments. Refuted: every accepted keyword has an effect (disks), laboratory sources take geomarea."
  },
  {
   "property": "C240",
   "status": "partial",
   "theorems": [
    "C240_new",
    "C240_pointed",
    "C240_when",
    "C240_written",
    "C240_kept",
    "C240_once",
    "C240_failed",
    "C240_repeat_refuted"
   ],
   "note": "Exact header and columns of a new list and after a pointing; conditions, what is kept, and the state of the list after a failure are proved for any list. Refuted: repeating a failed pointing. The clock, environment and version are arguments."
  },
  {
   "property": "C241",
   "status": "partial",
   "theorems": [
    "C241_position",
    "C241_chips",
    "C241_distinct",
    "C241_negative_refuted",
    "C241_index",
    "C241_when",
    "C241_kept",
    "C241_written",
    "C241_observation",
    "C241_laboratory",
    "C241_reference_refuted",
    "C241_systems"
   ],
   "note": "Proved for all headers, aimpoints and chips; the photons enter only through which chips are hit. ACIS itself can only be made with an aimpoint and no other keywords (C125_offset_refuted), the statements hold for every offset. Refuted: one name per detector (negative numbers), references of the coordinate systems in every header."
  },
  {
   "property": "C242",
   "status": "partial",
   "theorems": [
    "C242_half_maximum",
    "C242_full_width",
    "C242_table",
    "C242_at_table",
    "C242_between",
    "C242_outside",
    "C242_range",
    "C242_fwhm",
    "C242_shared_refuted",
    "C242_increasing",
    "C242_symmetric",
    "C242_no_width",
    "C242_interval",
    "C242_interval_around",
    "C242_events",
    "C242_column",
    "C242_events_errors",
    "C242_order_sorting"
   ],
   "note": "Refuted: the table of widths stays as the user made it (C242_shared_refuted); all else proved. np.interp is modelled for ascending energies, which the code does not check. The normal law Phi and its quantiles are arguments."
  },
  {
   "property": "C243",
   "status": "proved",
   "theorems": [
    "C243_ratio",
    "C243_ratio_only",
    "C243_instrument",
    "C243_energy",
    "C243_scatter",
    "C243_in_plane",
    "C243_grooves",
    "C243_turned",
    "C243_turned_exists",
    "C243_order_0"
   ],
   "note": "Proved for flat gratings and CAT gratings with one period; the turned pattern for photons along the normal (C243_turned), for other directions the change within the plane of the grating (C243_in_plane)."
  },
  {
   "property": "C244",
   "status": "proved",
   "theorems": [
    "C244_coordinates",
    "C244_disk",
    "C244_gauss",
    "C244_axis",
    "C244_distinct",
    "C244_roll",
    "C244_jitter"
   ],
   "note": "All parts hold in full, for ideal lenses (no scatter behind them), in exact real arithmetic. The images are those of all photons that hit the lens, for any place of the aperture they come through. The disk theorem needs a radius of at most 90 degrees (beyond, RadialDistributionSource does not keep the distance, see C117). Roll is for reference_transform = identity. Jitter is stated for the direction that JitterPointing gives to a photon on axis, not for a whole run."
  },
  {
   "property": "C245",
   "status": "proved",
   "theorems": [
    "C245_angle",
    "C245_reverse",
    "C245_tilt",
    "C245_pair",
    "C245_together",
    "C245_image",
    "C245_behind"
   ],
   "note": "All parts hold in full in exact real arithmetic, for the direction that FlatBrewsterMirror gives to a photon (the probability is C41 and C223). minv stands for np.linalg.inv."
  },
  {
   "property": "C246",
   "status": "proved",
   "theorems": [
    "C246_row",
    "C246_wrong_order",
    "C246_smaller",
    "C246_collimator",
    "C246_stop",
    "C246_focus"
   ],
   "note": "Any number of baffles with perpendicular axes. C246_wrong_order shows that the order of the elements in a Sequence has to be the order along the ray. C246_stop and C246_focus: perfect lens without offset (d_center_optax = 0), baffle parallel to the lens, s not negative."
  },
  {
   "property": "C247",
   "status": "proved",
   "theorems": [
    "C247_place",
    "C247_instrument",
    "C247_tangent",
    "C247_read",
    "C247_spread",
    "C247_pixel",
    "C247_resolving_power",
    "C247_linear",
    "C247_scales"
   ],
   "note": "Photons along the normal only; other directions of the photon are the subject of C238. No new code is modelled."
  },
  {
   "property": "C248",
   "status": "partial",
   "theorems": [
    "C248_matrix",
    "C248_length",
    "C248_directions",
    "C248_polarization",
    "C248_mirror",
    "C248_opposite",
    "C248_transport_refuted"
   ],
   "note": "The lines are never reached (C27); one photon at a time. All of the claim is proved but the last sentence, which is false: for directions that are not parallel both keep the part of the polarization perpendicular to the plane of the two directions, and the part in the plane has opposite signs (C248_opposite, for all directions and polarizations)."
  }
 ]
}