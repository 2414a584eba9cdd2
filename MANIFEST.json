{
 "claims": [
  {
   "property": "C01",
   "status": "proved",
   "theorems": [
    "C01_envelope_covers_every_point",
    "C01_envelope_is_smallest",
    "C01_envelope_order_independent",
    "C01_envelope_null_iff_no_points",
    "C01_expand_entry_points_agree"
   ],
   "note": ""
  },
  {
   "property": "C02",
   "status": "proved",
   "theorems": [
    "C02_entry_points",
    "C02_init",
    "C02_set_to_null",
    "C02_covers_point",
    "C02_covers_envelope",
    "C02_covers_reflexive",
    "C02_covers_transitive",
    "C02_covers_antisymmetric",
    "C02_equals_same_points",
    "C02_copy",
    "C02_contains_properly"
   ],
   "note": ""
  },
  {
   "property": "C03",
   "status": "proved",
   "theorems": [
    "C03_entry_points",
    "C03_intersects_iff_common_point",
    "C03_intersects_symmetric",
    "C03_disjoint_iff_no_common_point",
    "C03_point_in_segment_box",
    "C03_segment_boxes_meet",
    "C03_segment_box_meets_envelope",
    "C03_static_tests_agree_with_boxes"
   ],
   "note": ""
  },
  {
   "property": "C04",
   "status": "proved",
   "theorems": [
    "C04_intersection_is_common_points",
    "C04_intersection_null_iff_disjoint"
   ],
   "note": ""
  },
  {
   "property": "C05",
   "status": "proved",
   "theorems": [
    "C05_join_is_least_upper_bound",
    "C05_join_contains_both",
    "C05_join_commutative",
    "C05_join_associative",
    "C05_join_idempotent_and_null_unit"
   ],
   "note": ""
  },
  {
   "property": "C06",
   "status": "proved",
   "theorems": [
    "C06_expand_error",
    "C06_translate_error",
    "C06_null_stays_null",
    "C06_expand_nonnegative_covers",
    "C06_expand_negative_covered",
    "C06_translate_moves_points",
    "C06_expand_exact_on_grid",
    "C06_expand_by_is_expand_xy",
    "C06_translate_exact_on_grid"
   ],
   "note": ""
  },
  {
   "property": "C07",
   "status": "proved",
   "theorems": [
    "C07_distance_error",
    "C07_distance_symmetric",
    "C07_distance_zero_when_intersecting",
    "C07_distance_positive_when_disjoint",
    "C07_distance_value"
   ],
   "note": ""
  },
  {
   "property": "C08",
   "status": "proved",
   "theorems": [
    "C08_compare_antisymmetric",
    "C08_compare_transitive",
    "C08_compare_zero_iff_equal",
    "C08_null_is_lowest",
    "C08_compare_lexicographic_on_min_corner"
   ],
   "note": ""
  },
  {
   "property": "C09",
   "status": "proved",
   "theorems": [
    "C09_point_tests_agree_off_nan",
    "C09_point_tests_agree_refuted",
    "C09_nan_point_always_intersects"
   ],
   "note": ""
  },
  {
   "property": "C10",
   "status": "proved",
   "theorems": [
    "C10_compare_is_sign",
    "C10_compare_meaning",
    "C10_compare_antisymmetric",
    "C10_compare_transitive",
    "C10_compare_zero_iff_equals_2d",
    "C10_compare_nan_refuted"
   ],
   "note": ""
  },
  {
   "property": "C11",
   "status": "proved",
   "theorems": [
    "C11_equals_2d_meaning",
    "C11_equals_2d_equivalence",
    "C11_equals_2d_irreflexive_on_nan",
    "C11_equals_3d_meaning",
    "C11_equals_3d_implies_2d",
    "C11_tolerance_symmetric",
    "C11_tolerance_implied_by_equality",
    "C11_tolerance_complete",
    "C11_tolerance_sound",
    "C11_tolerance_zero",
    "C11_tolerance",
    "C11_tolerance_negative",
    "C11_z_within_tolerance",
    "C11_z_missing",
    "C11_tolerance_zero_any",
    "C11_tolerance_error"
   ],
   "note": ""
  },
  {
   "property": "C12",
   "status": "proved",
   "theorems": [
    "C12_from_coordinate_copies_all",
    "C12_set_coordinate_copies_xyz_keeps_m",
    "C12_set_coordinate_copies_m_refuted",
    "C12_set_then_get_ordinate",
    "C12_m_ordinate_refuted",
    "C12_setters"
   ],
   "note": ""
  },
  {
   "property": "C13",
   "status": "proved",
   "theorems": [
    "C13_compare_is_lexicographic",
    "C13_compare_total",
    "C13_compare_antisymmetric",
    "C13_compare_transitive",
    "C13_equals_is_pointwise"
   ],
   "note": ""
  },
  {
   "property": "C14",
   "status": "proved",
   "theorems": [
    "C14_remove_repeated_drops_exactly_repeats",
    "C14_remove_repeated_no_adjacent",
    "C14_has_repeated_points_meaning",
    "C14_remove_repeated_idempotent",
    "C14_unchanged_without_repeats"
   ],
   "note": ""
  },
  {
   "property": "C15",
   "status": "proved",
   "theorems": [
    "C15_remove_invalid_spec",
    "C15_coord_is_valid_meaning",
    "C15_invalid_survives_iff",
    "C15_no_adjacent_repeats",
    "C15_all_valid_refuted"
   ],
   "note": ""
  },
  {
   "property": "C16",
   "status": "proved",
   "theorems": [
    "C16_backward_array_is_reverse",
    "C16_reverse_twice",
    "C16_is_equal_reversed_meaning",
    "C16_is_equal_reversed_panics_if_shorter",
    "C16_copies_are_exact",
    "C16_copy_range"
   ],
   "note": ""
  },
  {
   "property": "C17",
   "status": "proved",
   "theorems": [
    "C17_scroll_is_rotation",
    "C17_scroll_permutation",
    "C17_scroll_out_of_range_panics",
    "C17_scroll_ring_rotates_vertices",
    "C17_scrolled_ring_is_closed",
    "C17_scroll_to_coordinate",
    "C17_scroll_single_point_refuted"
   ],
   "note": ""
  },
  {
   "property": "C18",
   "status": "proved",
   "theorems": [
    "C18_direction_is_sign",
    "C18_direction_reversed",
    "C18_direction_palindrome",
    "C18_direction_minus_one_iff"
   ],
   "note": ""
  },
  {
   "property": "C19",
   "status": "proved",
   "theorems": [
    "C19_extract_never_returns_points",
    "C19_extract_outcome",
    "C19_extract_panics_refuted"
   ],
   "note": ""
  },
  {
   "property": "C20",
   "status": "proved",
   "theorems": [
    "C20_consistency_keeps_xyz",
    "C20_consistency_loses_m",
    "C20_consistency_keeps_m_refuted",
    "C20_consistent_array_unchanged",
    "C20_consistency_achieved_refuted"
   ],
   "note": ""
  },
  {
   "property": "C21",
   "status": "proved",
   "theorems": [
    "C21_min_coordinate",
    "C21_index_of",
    "C21_pt_not_in_list",
    "C21_intersection_keeps_points_in_box",
    "C21_intersection_keeps_order",
    "C21_envelope_is_smallest_box",
    "C21_at_least_n"
   ],
   "note": ""
  },
  {
   "property": "C22",
   "status": "proved",
   "theorems": [
    "C22_histories_never_repeat",
    "C22_add_without_repeats_drops_exactly_repeats",
    "C22_add_allowing_repeats_appends",
    "C22_close_ring",
    "C22_insert_allowed_positions",
    "C22_insert_unless_adjacent_equal",
    "C22_list_made"
   ],
   "note": ""
  },
  {
   "property": "C23",
   "status": "proved",
   "theorems": [
    "C23_add_backward_panics_refuted",
    "C23_add_forward_appends",
    "C23_add_range_ascending",
    "C23_add_range_descending_release",
    "C23_add_range_descending_debug_refuted"
   ],
   "note": ""
  },
  {
   "property": "C24",
   "status": "proved",
   "theorems": [
    "C24_compare_f64_order",
    "C24_compare_f64_total",
    "C24_compare_f64_transitive",
    "C24_sequence_order",
    "C24_sequence_antisymmetric",
    "C24_sequence_transitive"
   ],
   "note": ""
  },
  {
   "property": "C25",
   "status": "proved",
   "theorems": [
    "C25_transpose_swaps_cells",
    "C25_transpose_involution",
    "C25_within_contains",
    "C25_covers_covered_by",
    "C25_symmetric_predicates",
    "C25_copy_is_equal"
   ],
   "note": ""
  },
  {
   "property": "C26",
   "status": "proved",
   "theorems": [
    "C26_matches_string_is_cellwise",
    "C26_matches_any_string",
    "C26_disjoint",
    "C26_intersects",
    "C26_within_contains",
    "C26_covers_covered_by",
    "C26_equals",
    "C26_touches",
    "C26_crosses",
    "C26_overlaps",
    "C26_implications",
    "C26_matches_texts"
   ],
   "note": ""
  },
  {
   "property": "C27",
   "status": "proved",
   "theorems": [
    "C27_print_parse",
    "C27_parse_print",
    "C27_parse_panics_iff",
    "C27_location_symbols",
    "C27_opposite_positions"
   ],
   "note": ""
  },
  {
   "property": "C28",
   "status": "proved",
   "theorems": [
    "C28_add_is_cellwise_max",
    "C28_add_laws",
    "C28_add_grows",
    "C28_update_history",
    "C28_update_order_irrelevant",
    "C28_raise_to_string",
    "C28_set_all",
    "C28_growth_keeps_matches",
    "C28_growth_from_T_refuted",
    "C28_growth_keeps_matches_proper"
   ],
   "note": ""
  },
  {
   "property": "C29",
   "status": "proved",
   "theorems": [
    "C29_reverse_exact",
    "C29_reverse_twice_is_identity",
    "C29_reverse_without_m",
    "C29_reverse_keeps_m_refuted",
    "C29_packed_reverse_exact",
    "C29_packed_reverse_twice"
   ],
   "note": ""
  },
  {
   "property": "C30",
   "status": "proved",
   "theorems": [
    "C30_create_closed_ring",
    "C30_create_closed_ring_too_small_panics",
    "C30_extend_repeats_last",
    "C30_is_ring",
    "C30_ensure_valid_ring",
    "C30_valid_ring_unchanged",
    "C30_closing_keeps_m_refuted",
    "C30_packed_ensure_valid_ring",
    "C30_packed_closed_ring",
    "C30_packed_extend"
   ],
   "note": ""
  },
  {
   "property": "C31",
   "status": "proved",
   "theorems": [
    "C31_scroll_positions",
    "C31_scroll_zero_unchanged",
    "C31_scroll_empty_panics",
    "C31_scroll_index_total",
    "C31_ring_stays_ring",
    "C31_index_of_first",
    "C31_scroll_coordinate",
    "C31_min_index_first",
    "C31_min_coordinate",
    "C31_is_equal",
    "C31_packed_scroll_index",
    "C31_min_index_whole",
    "C31_packed_min"
   ],
   "note": ""
  },
  {
   "property": "C32",
   "status": "proved",
   "theorems": [
    "C32_same_observations",
    "C32_same_min_index",
    "C32_same_equality",
    "C32_same_after_assignments",
    "C32_set_changes_one_ordinate",
    "C32_packed_set_changes_one_ordinate",
    "C32_same_after_reverse",
    "C32_same_after_scroll",
    "C32_same_after_closing",
    "C32_packed_swap",
    "C32_same_after_swap",
    "C32_same_after_scroll_index",
    "C32_same_after_scroll_coordinate"
   ],
   "note": ""
  },
  {
   "property": "C33",
   "status": "proved",
   "theorems": [
    "C33_from_coordinates_panics",
    "C33_from_coordinates_refuted",
    "C33_empty_works",
    "C33_from_raw_ordinates",
    "C33_copy_exact",
    "C33_made"
   ],
   "note": ""
  },
  {
   "property": "C34",
   "status": "proved",
   "theorems": [
    "C34_clamp_f64_in_range",
    "C34_clamp_f64_identity_inside",
    "C34_clamp_f64_monotone",
    "C34_clamp_f64_idempotent",
    "C34_clamp_i32",
    "C34_max_min",
    "C34_average",
    "C34_average_overflow_refuted"
   ],
   "note": ""
  },
  {
   "property": "C35",
   "status": "proved",
   "theorems": [
    "C35_wrap_exact",
    "C35_wrap_in_range_refuted",
    "C35_wrap_min_panics",
    "C35_ceil_positive_denominator",
    "C35_ceil_negative_denominator_refuted"
   ],
   "note": ""
  },
  {
   "property": "C36",
   "status": "proved",
   "theorems": [
    "C36_quasirandom_step_in_unit",
    "C36_quasirandom_all_iterates_in_unit",
    "C36_step_adds",
    "C36_step_golden"
   ],
   "note": ""
  },
  {
   "property": "C37",
   "status": "proved",
   "theorems": [
    "C37_shuffle_always_panics_refuted",
    "C37_swap_loop_permutes"
   ],
   "note": ""
  },
  {
   "property": "C38",
   "status": "proved",
   "theorems": [
    "C38_sum_exact",
    "C38_difference_exact",
    "C38_largest_double_refuted",
    "C38_copies"
   ],
   "note": ""
  },
  {
   "property": "C39",
   "status": "proved",
   "theorems": [
    "C39_product_exact",
    "C39_square_exact",
    "C39_underflow_refuted",
    "C39_large_factor_refuted"
   ],
   "note": ""
  },
  {
   "property": "C40",
   "status": "proved",
   "theorems": [
    "C40_comparisons",
    "C40_compare_to",
    "C40_signs",
    "C40_negate_abs",
    "C40_min_max"
   ],
   "note": ""
  },
  {
   "property": "C41",
   "status": "proved",
   "theorems": [
    "C41_int_value",
    "C41_int_value_refuted",
    "C41_floor_ceil_trunc",
    "C41_nan",
    "C41_rint_of_double",
    "C41_result_normalised_refuted",
    "C41_rint_changes_receiver_refuted"
   ],
   "note": ""
  },
  {
   "property": "C42",
   "status": "proved",
   "theorems": [
    "C42_filter_sound",
    "C42_underflow_refuted"
   ],
   "note": ""
  },
  {
   "property": "C43",
   "status": "proved",
   "theorems": [
    "C43_exact_on_grid",
    "C43_exact_on_wide_grid",
    "C43_exact_differences",
    "C43_exchange_and_rotation"
   ],
   "note": ""
  },
  {
   "property": "C44",
   "status": "proved",
   "theorems": [
    "C44_filter_antisymmetric",
    "C44_antisymmetric_on_grid",
    "C44_reversal_refuted"
   ],
   "note": ""
  },
  {
   "property": "C45",
   "status": "proved",
   "theorems": [
    "C45_exact_everywhere_refuted",
    "C45_underflow_refuted"
   ],
   "note": ""
  },
  {
   "property": "C46",
   "status": "proved",
   "theorems": [
    "C46_returns",
    "C46_vec_returns",
    "C46_few_points_false",
    "C46_empty_panics_refuted",
    "C46_turn_at_highest_vertex",
    "C46_simple_ring_clear",
    "C46_rectilinear",
    "C46_area_of_doubles",
    "C46_top",
    "C46_simple_ring",
    "C46_start",
    "C46_reverse",
    "C46_agrees_with_area",
    "C46_needs_simple_refuted"
   ],
   "note": ""
  },
  {
   "property": "C47",
   "status": "proved",
   "theorems": [
    "C47_error",
    "C47_ccw_area_error",
    "C47_reverse_error",
    "C47_signed_area_exact",
    "C47_area_exact",
    "C47_reverse",
    "C47_rotate",
    "C47_triangle",
    "C47_ccw_area",
    "C47_few_points",
    "C47_variants_agree",
    "C47_flat_refuted"
   ],
   "note": ""
  },
  {
   "property": "C48",
   "status": "proved",
   "theorems": [
    "C48_error",
    "C48_zero",
    "C48_short",
    "C48_nonneg",
    "C48_append",
    "C48_rectilinear"
   ],
   "note": ""
  },
  {
   "property": "C49",
   "status": "proved",
   "theorems": [
    "C49_sequence_vector",
    "C49_packed_vector",
    "C49_incremental",
    "C49_is_in_ring"
   ],
   "note": ""
  },
  {
   "property": "C50",
   "status": "proved",
   "theorems": [
    "C50_boundary_clear",
    "C50_even_odd_clear",
    "C50_reverse_clear",
    "C50_rotate_clear",
    "C50_outside_clear",
    "C50_triangle_clear",
    "C50_rectilinear",
    "C50_boundary",
    "C50_even_odd",
    "C50_reverse",
    "C50_rotate",
    "C50_outside_envelope",
    "C50_triangle",
    "C50_path_clear",
    "C50_simple_ring_clear",
    "C50_cross_changes_clear",
    "C50_left_inside_clear",
    "C50_path",
    "C50_simple_ring",
    "C50_cross_changes",
    "C50_left_inside"
   ],
   "note": ""
  },
  {
   "property": "C51",
   "status": "proved",
   "theorems": [
    "C51_on_segment_clear",
    "C51_on_line_clear",
    "C51_on_line",
    "C51_sequence_vector",
    "C51_on_segment",
    "C51_on_line_grid",
    "C51_boundary_is_on_line"
   ],
   "note": ""
  },
  {
   "property": "C52",
   "status": "proved",
   "theorems": [
    "C52_point_to_segment_error",
    "C52_segment_to_segment_error",
    "C52_string_error",
    "C52_line_error",
    "C52_meeting_refuted",
    "C52_apart_refuted",
    "C52_point_to_segment_exact",
    "C52_segment_to_segment_exact",
    "C52_segments_meet",
    "C52_segments_symmetric",
    "C52_string_exact",
    "C52_line_exact",
    "C52_point_to_segment_close",
    "C52_segment_to_segment_close",
    "C52_string_close",
    "C52_zero_iff",
    "C52_nonneg",
    "C52_string_below_segments",
    "C52_tiny_segment_refuted",
    "C52_line_close"
   ],
   "note": ""
  },
  {
   "property": "C53",
   "status": "proved",
   "theorems": [
    "C53_proper_point_error",
    "C53_classification_clear",
    "C53_has_intersection_clear",
    "C53_axis_parallel",
    "C53_point_on_segment_clear",
    "C53_interpolate_ends",
    "C53_interpolate",
    "C53_interpolate_both",
    "C53_collinear_z",
    "C53_touch_z",
    "C53_proper_z",
    "C53_nearest_endpoint",
    "C53_classification",
    "C53_has_intersection",
    "C53_any_doubles",
    "C53_point_on_segment",
    "C53_compute_intersect_refuted",
    "C53_symmetric",
    "C53_start",
    "C53_precision_model",
    "C53_get_intersection",
    "C53_fallback"
   ],
   "note": ""
  },
  {
   "property": "C54",
   "status": "proved",
   "theorems": [
    "C54_intersection_error",
    "C54_intersection",
    "C54_hcoordinate",
    "C54_fp",
    "C54_line_segment",
    "C54_line_segment_fallback",
    "C54_homogeneous_line",
    "C54_homogeneous_meet",
    "C54_hcoordinate_error",
    "C54_fp_error",
    "C54_line_segment_clear",
    "C54_homogeneous_point",
    "C54_homogeneous_weight"
   ],
   "note": ""
  },
  {
   "property": "C55",
   "status": "proved",
   "theorems": [
    "C55_acute_obtuse_error",
    "C55_angle_of_vector",
    "C55_angle_of_any",
    "C55_interior_angle_of",
    "C55_angle_between_of",
    "C55_bisector_of",
    "C55_get_turn",
    "C55_snap",
    "C55_project",
    "C55_degrees",
    "C55_triangle_turns",
    "C55_triangle_clockwise",
    "C55_triangle_counterclockwise",
    "C55_pi",
    "C55_normalize",
    "C55_normalize_diverges",
    "C55_normalize_positive",
    "C55_normalize_positive_diverges",
    "C55_nan",
    "C55_diff_symmetric",
    "C55_diff",
    "C55_of_points",
    "C55_acute_obtuse",
    "C55_between_range_refuted",
    "C55_pi_fractions"
   ],
   "note": ""
  },
  {
   "property": "C56",
   "status": "proved",
   "theorems": [
    "C56_quadrant_of_vector",
    "C56_quadrant_unique",
    "C56_quadrant_of_segment",
    "C56_nan_vector_gets_quadrant",
    "C56_opposite_of_negated",
    "C56_opposite_symmetric_irreflexive",
    "C56_common_half_plane",
    "C56_common_half_plane_contains_refuted",
    "C56_northern"
   ],
   "note": ""
  },
  {
   "property": "C57",
   "status": "proved",
   "theorems": [
    "C57_idempotent",
    "C57_nearest",
    "C57_nearest_grid",
    "C57_monotone",
    "C57_unchanged",
    "C57_coordinate",
    "C57_set_scale",
    "C57_copy",
    "C57_grid_size",
    "C57_overflow_refuted"
   ],
   "note": ""
  },
  {
   "property": "C58",
   "status": "proved",
   "theorems": [
    "C58_digits_of_scale",
    "C58_digits_of_power",
    "C58_half_away",
    "C58_uniform_refuted",
    "C58_single_refuted",
    "C58_equals_self",
    "C58_equals",
    "C58_floating_not_equal_refuted",
    "C58_compare_digits",
    "C58_compare",
    "C58_digits"
   ],
   "note": ""
  },
  {
   "property": "C59",
   "status": "proved",
   "theorems": [
    "C59_of_line",
    "C59_point_test",
    "C59_sequence",
    "C59_part",
    "C59_hull",
    "C59_null_oct",
    "C59_null_refuted",
    "C59_contains",
    "C59_union",
    "C59_envelope",
    "C59_envelope_null_refuted",
    "C59_expand_by",
    "C59_ops",
    "C59_of_points",
    "C59_copy"
   ],
   "note": ""
  },
  {
   "property": "C60",
   "status": "proved",
   "theorems": [
    "C60_distance_error",
    "C60_line_intersection_error",
    "C60_project_error",
    "C60_closest_point_error",
    "C60_project_segment_error",
    "C60_mid_point_error",
    "C60_along_error",
    "C60_offset_error",
    "C60_reflect_error",
    "C60_fraction_error",
    "C60_closest_points_error",
    "C60_extent",
    "C60_horizontal_vertical",
    "C60_orientation_segment",
    "C60_lengths",
    "C60_perpendicular_oriented",
    "C60_project",
    "C60_project_segment",
    "C60_offset",
    "C60_keeps_z_m",
    "C60_closest_point_exact",
    "C60_projection_exact",
    "C60_fraction_exact",
    "C60_offset_exact",
    "C60_reflect_exact",
    "C60_project_segment_exact",
    "C60_mid_point_exact",
    "C60_fraction",
    "C60_reverse_normalize",
    "C60_compare",
    "C60_equals_topo",
    "C60_closest_pair_exact",
    "C60_closest_point",
    "C60_closest_point_kind",
    "C60_orientation_intersection",
    "C60_closest_points",
    "C60_closest_points_refuted",
    "C60_set",
    "C60_constructors",
    "C60_fraction_clamped",
    "C60_intersection_point",
    "C60_closest_points_meeting"
   ],
   "note": ""
  },
  {
   "property": "C61",
   "status": "proved",
   "theorems": [
    "C61_acute_error",
    "C61_circumcentre_dd_error",
    "C61_circumcentre_error",
    "C61_circumradius_error",
    "C61_bisector_error",
    "C61_interpolate_error",
    "C61_methods",
    "C61_nonnegative",
    "C61_centroid_inside_refuted",
    "C61_in_centre_inside_refuted",
    "C61_smallest_circle_refuted",
    "C61_lengths_error",
    "C61_area_error",
    "C61_in_centre_error",
    "C61_angle_bisector_error",
    "C61_circumradius",
    "C61_bisector",
    "C61_area_3d",
    "C61_in_centre_true",
    "C61_angle_bisector_true",
    "C61_area_3d_true",
    "C61_area_exact",
    "C61_circumcircle_exact",
    "C61_circumradius_degenerate",
    "C61_bisector_exact",
    "C61_in_centre_exact",
    "C61_centroid_exact",
    "C61_lengths_exact",
    "C61_angle_bisector_exact",
    "C61_area_3d_exact",
    "C61_interpolate_exact",
    "C61_intersects",
    "C61_intersects_degenerate",
    "C61_degenerate_outside_refuted",
    "C61_acute",
    "C61_area",
    "C61_circumcentre_dd",
    "C61_circumcentre",
    "C61_centroid",
    "C61_interpolate_vertices",
    "C61_area_3d_error",
    "C61_centroid_error"
   ],
   "note": ""
  },
  {
   "property": "C62",
   "status": "proved",
   "theorems": [
    "C62_constructors",
    "C62_parallel_exact",
    "C62_translate_error",
    "C62_length_error",
    "C62_normalize_error",
    "C62_length3_error",
    "C62_dot_error",
    "C62_rotate_quarter",
    "C62_rotate_action",
    "C62_rotate_modulo",
    "C62_rotate_inverse",
    "C62_rotate_dot",
    "C62_rotate_half",
    "C62_sum_laws",
    "C62_equals",
    "C62_equals_components",
    "C62_components",
    "C62_exact",
    "C62_translate",
    "C62_length",
    "C62_normalize",
    "C62_angles",
    "C62_rotate",
    "C62_parallel",
    "C62_weighted",
    "C62_exact3",
    "C62_dot_coordinates",
    "C62_length3",
    "C62_normalize_coordinate",
    "C62_normalize3_tiny_refuted"
   ],
   "note": ""
  },
  {
   "property": "C63",
   "status": "proved",
   "theorems": [
    "C63_never_solves",
    "C63_sizes",
    "C63_empty",
    "C63_square",
    "C63_solves_refuted",
    "C63_swap_1d",
    "C63_swap_2d"
   ],
   "note": ""
  },
  {
   "property": "C64",
   "status": "proved",
   "theorems": [
    "C64_holes_panic",
    "C64_reverse_refuted",
    "C64_no_holes"
   ],
   "note": ""
  },
  {
   "property": "C65",
   "status": "proved",
   "theorems": [
    "C65_unchanged",
    "C65_single_point_panics",
    "C65_normal_form_refuted"
   ],
   "note": ""
  },
  {
   "property": "C66",
   "status": "proved",
   "theorems": [
    "C66_point_panics",
    "C66_line_copy_panics",
    "C66_polygon_panics",
    "C66_line_reverse_drops",
    "C66_empty",
    "C66_copy_refuted",
    "C66_reverse_refuted"
   ],
   "note": ""
  },
  {
   "property": "C67",
   "status": "proved",
   "theorems": [
    "C67_new",
    "C67_end_points",
    "C67_is_closed",
    "C67_ring_is_closed",
    "C67_is_coordinate",
    "C67_reverse",
    "C67_reverse_points",
    "C67_reverse_points_refuted",
    "C67_compare",
    "C67_compare_transitive",
    "C67_ring_compare",
    "C67_compare_with",
    "C67_equals_exact",
    "C67_ring_equals_exact",
    "C67_normalize",
    "C67_normalize_direction",
    "C67_normalize_nan_refuted",
    "C67_envelope",
    "C67_ring_envelope",
    "C67_line_made",
    "C67_copy",
    "C67_length_error"
   ],
   "note": ""
  },
  {
   "property": "C68",
   "status": "proved",
   "theorems": [
    "C68_area_error",
    "C68_length_error",
    "C68_new",
    "C68_of_coordinates",
    "C68_copy",
    "C68_coordinates",
    "C68_empty_shell",
    "C68_count_refuted",
    "C68_area",
    "C68_measures_total",
    "C68_length",
    "C68_envelope",
    "C68_equals_exact",
    "C68_compare",
    "C68_compare_with",
    "C68_is_rectangle",
    "C68_rectangle_accepted",
    "C68_rectangle_meaning",
    "C68_rectangle_refuted",
    "C68_open_rectangle_refuted"
   ],
   "note": ""
  },
  {
   "property": "C69",
   "status": "proved",
   "theorems": [
    "C69_mean_error",
    "C69_line_error",
    "C69_polygon_error",
    "C69_ring_error",
    "C69_multi_polygon_error",
    "C69_point",
    "C69_mean",
    "C69_line",
    "C69_line_empty_panics",
    "C69_polygon_returns",
    "C69_multi_polygon_returns",
    "C69_never_panics_refuted",
    "C69_polygon",
    "C69_ring",
    "C69_formula_invariant",
    "C69_formula_area",
    "C69_triangle",
    "C69_box",
    "C69_multi_polygon",
    "C69_degenerate",
    "C69_get_centroid",
    "C69_multi_get_centroid",
    "C69_built_centroid",
    "C69_multi_built_centroid",
    "C69_copy_refuted",
    "C69_simple_polygon",
    "C69_simple_multi_polygon"
   ],
   "note": ""
  },
  {
   "property": "C70",
   "status": "proved",
   "theorems": [
    "C70_api_histories_keep_envelopes_well_formed",
    "C70_constructors_well_formed",
    "C70_empty_is_one"
   ],
   "note": ""
  },
  {
   "property": "C71",
   "status": "proved",
   "theorems": [
    "C71_diameter",
    "C71_sizes_error",
    "C71_centre_error",
    "C71_centre_inside",
    "C71_centre_none_iff_null",
    "C71_centre_inside_refuted",
    "C71_width_height_nonnegative",
    "C71_sizes_exact_on_grid",
    "C71_centre_exact_on_grid",
    "C71_diameter_error"
   ],
   "note": ""
  },
  {
   "property": "C72",
   "status": "proved",
   "theorems": [
    "C72_sum_normed",
    "C72_difference_error",
    "C72_determinant_error",
    "C72_quotient_error",
    "C72_reciprocal",
    "C72_reciprocal_error",
    "C72_pow_error",
    "C72_pow_zero",
    "C72_sqrt_special",
    "C72_sqrt_error",
    "C72_determinant",
    "C72_determinant_f64",
    "C72_magnitude",
    "C72_magnitude_panics_refuted",
    "C72_nan",
    "C72_nan_double",
    "C72_nan_unary",
    "C72_square_error",
    "C72_sum_commutes",
    "C72_product_commutes",
    "C72_double",
    "C72_multiply_divide",
    "C72_reciprocal_twice",
    "C72_sqrt_square",
    "C72_divide_by_zero",
    "C72_infinite_arguments",
    "C72_product_error",
    "C72_sum_error",
    "C72_sum_sign",
    "C72_difference_sign",
    "C72_pow_total",
    "C72_pow_min_panics_refuted",
    "C72_magnitude_accurate"
   ],
   "note": ""
  },
  {
   "property": "C73",
   "status": "proved",
   "theorems": [
    "C73_right_when_clear",
    "C73_integers_clear",
    "C73_right_unless_nearly_collinear",
    "C73_sign_of_det"
   ],
   "note": ""
  },
  {
   "property": "C74",
   "status": "proved",
   "theorems": [
    "C74_point_segment_exact",
    "C74_segments_attained",
    "C74_segments_exact",
    "C74_segments_parallel",
    "C74_segments_point_chain",
    "C74_segments_refuted",
    "C74_distance_rounded",
    "C74_distance_plane",
    "C74_distance",
    "C74_point_segment_ends",
    "C74_degenerate_refuted",
    "C74_distance_error",
    "C74_distance_3d_error",
    "C74_point_segment_error",
    "C74_segments_error",
    "C74_segments_accurate"
   ],
   "note": ""
  },
  {
   "property": "C75",
   "status": "proved",
   "theorems": [
    "C75_coordinate",
    "C75_kind_tests",
    "C75_create",
    "C75_sequence_default",
    "C75_create_xyz_refuted",
    "C75_array",
    "C75_empty_array",
    "C75_consistency_scan",
    "C75_constructors",
    "C75_reading",
    "C75_read_back",
    "C75_factory",
    "C75_packed",
    "C75_named_constructors",
    "C75_sized"
   ],
   "note": ""
  },
  {
   "property": "C76",
   "status": "proved",
   "theorems": [
    "C76_new",
    "C76_default",
    "C76_of_sequence",
    "C76_copy",
    "C76_envelope",
    "C76_equals_exact",
    "C76_compare"
   ],
   "note": ""
  },
  {
   "property": "C77",
   "status": "proved",
   "theorems": [
    "C77_point_envelope",
    "C77_point_equals",
    "C77_point_at",
    "C77_point_at_refuted",
    "C77_point_coordinates",
    "C77_point_coordinates_refuted",
    "C77_point_coordinate",
    "C77_create",
    "C77_point_new",
    "C77_create_without_m",
    "C77_create_keeps_m_refuted",
    "C77_line_is_empty",
    "C77_line_is_closed",
    "C77_line_equals",
    "C77_polygon_access",
    "C77_polygon_equals",
    "C77_polygon_area",
    "C77_area_error"
   ],
   "note": ""
  },
  {
   "property": "C78",
   "status": "proved",
   "theorems": [
    "C78_new",
    "C78_new_overflow",
    "C78_always_empty",
    "C78_store_refuted",
    "C78_has_z_has_m",
    "C78_copy",
    "C78_copy_measures_refuted",
    "C78_factory",
    "C78_sized"
   ],
   "note": ""
  },
  {
   "property": "C79",
   "status": "proved",
   "theorems": [
    "C79_pi",
    "C79_two_pi",
    "C79_half_pi",
    "C79_e",
    "C79_eps",
    "C79_eps_refuted"
   ],
   "note": ""
  },
  {
   "property": "C80",
   "status": "proved",
   "theorems": [
    "C80_coordinate_text",
    "C80_envelope_text",
    "C80_vector_text",
    "C80_sequence_text",
    "C80_sequence_shape",
    "C80_precision_text"
   ],
   "note": ""
  },
  {
   "property": "C81",
   "status": "proved",
   "theorems": [
    "C81_kind",
    "C81_code_order",
    "C81_dimension",
    "C81_has_dimension",
    "C81_symbols"
   ],
   "note": ""
  },
  {
   "property": "C82",
   "status": "proved",
   "theorems": [
    "C82_segments_meet",
    "C82_point_on_segment",
    "C82_point_on_line",
    "C82_point_in_triangle",
    "C82_point_in_rectangle",
    "C82_rectangle_area",
    "C82_triangle_area"
   ],
   "note": ""
  },
  {
   "property": "C83",
   "status": "proved",
   "theorems": [
    "C83_matrix_set",
    "C83_matrix_at_least",
    "C83_is_true",
    "C83_line_access",
    "C83_ring_access",
    "C83_array_is_ring",
    "C83_vector_scale",
    "C83_vector_divide",
    "C83_homogeneous_get",
    "C83_homogeneous_meet"
   ],
   "note": ""
  },
  {
   "property": "C84",
   "status": "proved",
   "theorems": [
    "C84_any_order",
    "C84_skip",
    "C84_rings",
    "C84_polygon",
    "C84_directions",
    "C84_stays"
   ],
   "note": ""
  },
  {
   "property": "C85",
   "status": "proved",
   "theorems": [
    "C85_flat_triangle_dd",
    "C85_line_refuted",
    "C85_ring_refuted",
    "C85_open_area_refuted",
    "C85_offset",
    "C85_along",
    "C85_project",
    "C85_fraction_refuted",
    "C85_reflect",
    "C85_project_segment",
    "C85_line_segment_refuted",
    "C85_flat_triangle"
   ],
   "note": ""
  },
  {
   "property": "C86",
   "status": "proved",
   "theorems": [
    "C86_area",
    "C86_area_sequence",
    "C86_area_exception",
    "C86_point_to_segment",
    "C86_segment_distance",
    "C86_segment_nan_refuted",
    "C86_envelope",
    "C86_envelope_lost",
    "C86_order_refuted",
    "C86_length",
    "C86_length_lost",
    "C86_orientation",
    "C86_locate",
    "C86_nan_outside_refuted",
    "C86_on_segment",
    "C86_boundary_refuted",
    "C86_triangle",
    "C86_not_proper"
   ],
   "note": ""
  }
 ]
}