{
 "claims": [
  {
   "property": "C01",
   "status": "proved",
   "theorems": [
    "C01_trichotomy",
    "C01_le_is_not_gt",
    "C01_ge_is_not_lt",
    "C01_almost_equal_sym",
    "C01_almost_equal_refl",
    "C01_meaning",
    "C01_nan",
    "C01_infinite_refuted"
   ],
   "note": "Exact arithmetic for the order laws; NaN and infinity facts are about binary64 (primitive floats)."
  },
  {
   "property": "C02",
   "status": "proved",
   "theorems": [
    "C02_binomial",
    "C02_binomial_out",
    "C02_factorial",
    "C02_factorial_no_overflow"
   ],
   "note": ""
  },
  {
   "property": "C03",
   "status": "proved",
   "theorems": [
    "C03_horner",
    "C03_horner_rejects",
    "C03_horner2"
   ],
   "note": ""
  },
  {
   "property": "C04",
   "status": "proved",
   "theorems": [
    "C04_all_bernstein",
    "C04_nonneg",
    "C04_sum_one",
    "C04_bernstein",
    "C04_bernstein_interior",
    "C04_bernstein_refuted",
    "C04_bernstein_rejects"
   ],
   "note": "Bernstein is right for index 0, 1 and the degree; for 2<=i<p it returns another polynomial (C04_bernstein_refuted, Polynomials.cpp:52 starts the inner loop at index)."
  },
  {
   "property": "C05",
   "status": "proved",
   "theorems": [
    "C05_bezier_to_power",
    "C05_power_to_bezier_inverse"
   ],
   "note": ""
  },
  {
   "property": "C06",
   "status": "proved",
   "theorems": [
    "C06_span_search",
    "C06_span_in_domain",
    "C06_span_unique",
    "C06_narrow_span_refuted",
    "C06_short_knots_refuted"
   ],
   "note": ""
  },
  {
   "property": "C07",
   "status": "proved",
   "theorems": [
    "C07_multiplicity",
    "C07_multiplicity_exact"
   ],
   "note": ""
  },
  {
   "property": "C08",
   "status": "proved",
   "theorems": [
    "C08_basis_functions",
    "C08_any_span"
   ],
   "note": ""
  },
  {
   "property": "C09",
   "status": "proved",
   "theorems": [
    "C09_nonneg",
    "C09_sum_to_one",
    "C09_local_support",
    "C09_returned_values"
   ],
   "note": ""
  },
  {
   "property": "C10",
   "status": "proved",
   "theorems": [
    "C10_one_basis_function",
    "C10_outside_support",
    "C10_last_knot",
    "C10_unclamped_refuted"
   ],
   "note": ""
  },
  {
   "property": "C11",
   "status": "proved",
   "theorems": [
    "C11_all_basis_functions"
   ],
   "note": ""
  },
  {
   "property": "C12",
   "status": "proved",
   "theorems": [
    "C12_derivatives",
    "C12_order_above_degree",
    "C12_derivative_unique"
   ],
   "note": ""
  },
  {
   "property": "C13",
   "status": "proved",
   "theorems": [
    "C13_first_order"
   ],
   "note": ""
  },
  {
   "property": "C14",
   "status": "proved",
   "theorems": [
    "C14_bezier_evaluators_agree",
    "C14_bezier_point"
   ],
   "note": ""
  },
  {
   "property": "C15",
   "status": "proved",
   "theorems": [
    "C15_bezier_ends",
    "C15_bezier_hull",
    "C15_bezier_affine"
   ],
   "note": ""
  },
  {
   "property": "C16",
   "status": "proved",
   "theorems": [
    "C16_bezier_surface"
   ],
   "note": ""
  },
  {
   "property": "C17",
   "status": "proved",
   "theorems": [
    "C17_curve_point",
    "C17_curve_local",
    "C17_curve_affine"
   ],
   "note": ""
  },
  {
   "property": "C18",
   "status": "proved",
   "theorems": [
    "C18_clamped_ends",
    "C18_curve_hull"
   ],
   "note": ""
  },
  {
   "property": "C19",
   "status": "proved",
   "theorems": [
    "C19_derivatives",
    "C19_span_curve_is_curve",
    "C19_derivative_unique"
   ],
   "note": ""
  },
  {
   "property": "C20",
   "status": "proved",
   "theorems": [
    "C20_derivative_control_points",
    "C20_same_derivatives"
   ],
   "note": ""
  },
  {
   "property": "C21",
   "status": "proved",
   "theorems": [
    "C21_surface_point",
    "C21_rows_first",
    "C21_columns_first"
   ],
   "note": ""
  },
  {
   "property": "C22",
   "status": "proved",
   "theorems": [
    "C22_surface_derivatives",
    "C22_first_order",
    "C22_patch_is_surface",
    "C22_order_above_degree_throws",
    "C22_by_all_basis_functions_refuted"
   ],
   "note": ""
  },
  {
   "property": "C23",
   "status": "proved",
   "theorems": [
    "C23_rational_point",
    "C23_rational_hull",
    "C23_rational_weight_scaling",
    "C23_rational_point_tiny_weights_refuted"
   ],
   "note": ""
  },
  {
   "property": "C24",
   "status": "proved",
   "theorems": [
    "C24_rational_derivatives",
    "C24_rational_derivatives_positive_weights",
    "C24_rational_derivatives_zero_weight"
   ],
   "note": ""
  },
  {
   "property": "C25",
   "status": "proved",
   "theorems": [
    "C25_insert_knot_structure"
   ],
   "note": ""
  },
  {
   "property": "C26",
   "status": "proved",
   "theorems": [
    "C26_insert_knot_preserves",
    "C26_insert_near_knot_refuted"
   ],
   "note": ""
  },
  {
   "property": "C27",
   "status": "proved",
   "theorems": [
    "C27_corner_cut",
    "C27_corner_cut_full_multiplicity_refuted"
   ],
   "note": ""
  },
  {
   "property": "C28",
   "status": "proved",
   "theorems": [
    "C28_refine_preserves",
    "C28_refine_unsorted_refuted"
   ],
   "note": ""
  },
  {
   "property": "C29",
   "status": "proved",
   "theorems": [
    "C29_decompose",
    "C29_linear_refuted",
    "C29_full_multiplicity_refuted"
   ],
   "note": ""
  },
  {
   "property": "C30",
   "status": "proved",
   "theorems": [
    "C30_insert_remove",
    "C30_full_multiplicity",
    "C30_never_refused_refuted",
    "C30_corner_removed_refuted",
    "C30_quadratic_refuted",
    "C30_cubic_refuted",
    "C30_sizes_refuted",
    "C30_no_knot_refuted",
    "C30_first_span_refuted"
   ],
   "note": ""
  },
  {
   "property": "C31",
   "status": "proved",
   "theorems": [
    "C31_elevate",
    "C31_repeated_knot_refuted",
    "C31_degree_zero_refuted"
   ],
   "note": ""
  },
  {
   "property": "C32",
   "status": "proved",
   "theorems": [
    "C32_reduce_exact",
    "C32_elevate_reduce",
    "C32_reduce_close",
    "C32_not_bezier",
    "C32_odd_tolerance_refuted",
    "C32_degree_one_refuted",
    "C32_unclamped_refuted"
   ],
   "note": ""
  },
  {
   "property": "C33",
   "status": "proved",
   "theorems": [
    "C33_reverse",
    "C33_reverse_jump_refuted"
   ],
   "note": ""
  },
  {
   "property": "C34",
   "status": "proved",
   "theorems": [
    "C34_split",
    "C34_split_refuses",
    "C34_split_jump_refuted"
   ],
   "note": ""
  },
  {
   "property": "C35",
   "status": "proved",
   "theorems": [
    "C35_extract_sizes"
   ],
   "note": ""
  },
  {
   "property": "C36",
   "status": "proved",
   "theorems": [
    "C36_rescale",
    "C36_rescale_degenerate",
    "C36_reparametrize",
    "C36_reparametrize_rational"
   ],
   "note": ""
  },
  {
   "property": "C37",
   "status": "proved",
   "theorems": [
    "C37_transform",
    "C37_projective_refuted"
   ],
   "note": ""
  },
  {
   "property": "C38",
   "status": "proved",
   "theorems": [
    "C38_merge",
    "C38_merge_refuses",
    "C38_merge_refuses_unclamped"
   ],
   "note": ""
  },
  {
   "property": "C39",
   "status": "proved",
   "theorems": [
    "C39_multiplicity_map",
    "C39_internal_map",
    "C39_internal_map_refuted",
    "C39_compatible",
    "C39_compatible_pair"
   ],
   "note": ""
  },
  {
   "property": "C40",
   "status": "proved",
   "theorems": [
    "C40_chord",
    "C40_centripetal",
    "C40_lengths"
   ],
   "note": ""
  },
  {
   "property": "C41",
   "status": "proved",
   "theorems": [
    "C41_average",
    "C41_average_few_refuted",
    "C41_average_degree_zero_refuted"
   ],
   "note": ""
  },
  {
   "property": "C42",
   "status": "proved",
   "theorems": [
    "C42_product_is_composition",
    "C42_product_entries",
    "C42_algebra",
    "C42_points_and_vectors",
    "C42_translation",
    "C42_scale",
    "C42_basis",
    "C42_rotation",
    "C42_rotation_laws",
    "C42_rotation_inverse",
    "C42_rotation_at_point",
    "C42_rotation_zero_axis_refuted",
    "C42_reflection",
    "C42_reflection_plane_refuted",
    "C42_is_identity_refuted",
    "C42_identity_accepted",
    "C42_has_reflection"
   ],
   "note": ""
  },
  {
   "property": "C43",
   "status": "proved",
   "theorems": [
    "C43_simpson",
    "C43_simpson2",
    "C43_quartic_refuted"
   ],
   "note": ""
  },
  {
   "property": "C44",
   "status": "proved",
   "theorems": [
    "C44_ray",
    "C44_zero_direction",
    "C44_behind_origin_refuted",
    "C44_segment",
    "C44_degenerate_segment",
    "C44_stereographic",
    "C44_stereographic_pole"
   ],
   "note": ""
  },
  {
   "property": "C45",
   "status": "proved",
   "theorems": [
    "C45_same",
    "C45_zero_vector",
    "C45_cases",
    "C45_meeting_lines",
    "C45_short_vectors_refuted"
   ],
   "note": ""
  },
  {
   "property": "C46",
   "status": "proved",
   "theorems": [
    "C46_line_plane",
    "C46_short_vector_refuted"
   ],
   "note": ""
  },
  {
   "property": "C47",
   "status": "proved",
   "theorems": [
    "C47_no_point_lost",
    "C47_terminates",
    "C47_negative_extent_refuted"
   ],
   "note": ""
  },
  {
   "property": "C48",
   "status": "proved",
   "theorems": [
    "C48_radius_search",
    "C48_radius_search_fast",
    "C48_small_radius_refuted",
    "C48_large_coordinates_refuted"
   ],
   "note": ""
  },
  {
   "property": "C49",
   "status": "proved",
   "theorems": [
    "C49_keeps_the_best",
    "C49_close_distances_refuted",
    "C49_close_distances_order_refuted",
    "C49_capacity_zero_refuted"
   ],
   "note": ""
  },
  {
   "property": "C50",
   "status": "proved",
   "theorems": [
    "C50_arc",
    "C50_short_arc_refuted",
    "C50_ellipse_refuted"
   ],
   "note": ""
  },
  {
   "property": "C51",
   "status": "proved",
   "theorems": [
    "C51_line",
    "C51_line_throws"
   ],
   "note": ""
  },
  {
   "property": "C52",
   "status": "proved",
   "theorems": [
    "C52_swap",
    "C52_swap_in_place_refuted"
   ],
   "note": ""
  },
  {
   "property": "C53",
   "status": "proved",
   "theorems": [
    "C53_reverse_u",
    "C53_reverse_u_fresh_refuted",
    "C53_reverse_v_refuted",
    "C53_reverse_all_net",
    "C53_reverse_all_refuted"
   ],
   "note": ""
  },
  {
   "property": "C54",
   "status": "proved",
   "theorems": [
    "C54_iso_curve_u",
    "C54_iso_curve_v"
   ],
   "note": ""
  },
  {
   "property": "C55",
   "status": "proved",
   "theorems": [
    "C55_insert_u",
    "C55_insert_v",
    "C55_refine_u",
    "C55_refine_v"
   ],
   "note": ""
  },
  {
   "property": "C56",
   "status": "proved",
   "theorems": [
    "C56_interpolates",
    "C56_interpolates_chord",
    "C56_degree_zero_refuted",
    "C56_tangents_quadratic_refuted",
    "C56_tangents_cubic_refuted",
    "C56_wide_grid_refuted",
    "C56_tall_grid_refuted"
   ],
   "note": ""
  },
  {
   "property": "C57",
   "status": "proved",
   "theorems": [
    "C57_product",
    "C57_associative",
    "C57_identity",
    "C57_transpose",
    "C57_transpose_involutive",
    "C57_transpose_product",
    "C57_column"
   ],
   "note": ""
  },
  {
   "property": "C58",
   "status": "proved",
   "theorems": [
    "C58_box",
    "C58_corner_outside_refuted",
    "C58_more_u_knots_refuted"
   ],
   "note": ""
  },
  {
   "property": "C59",
   "status": "proved",
   "theorems": [
    "C59_dot",
    "C59_cross",
    "C59_orthogonal",
    "C59_right_handed",
    "C59_lagrange",
    "C59_normalize",
    "C59_normalize_zero",
    "C59_distance_metric"
   ],
   "note": ""
  },
  {
   "property": "C60",
   "status": "proved",
   "theorems": [
    "C60_split_conic_is_polygon"
   ],
   "note": ""
  },
  {
   "property": "C61",
   "status": "proved",
   "theorems": [
    "C61_arc_equal_weights",
    "C61_arc_weights_refuted"
   ],
   "note": ""
  },
  {
   "property": "C62",
   "status": "proved",
   "theorems": [
    "C62_fit_knots",
    "C62_every_span_has_a_parameter",
    "C62_too_few_parameters_refuted"
   ],
   "note": ""
  },
  {
   "property": "C63",
   "status": "proved",
   "theorems": [
    "C63_mesh"
   ],
   "note": ""
  },
  {
   "property": "C64",
   "status": "proved",
   "theorems": [
    "C64_tangents",
    "C64_parabola_refuted",
    "C64_repeated_point_refuted"
   ],
   "note": ""
  },
  {
   "property": "C65",
   "status": "proved",
   "theorems": [
    "C65_conic_through_point"
   ],
   "note": ""
  },
  {
   "property": "C66",
   "status": "proved",
   "theorems": [
    "C66_even_knots",
    "C66_even_knots_refuted",
    "C66_uniform",
    "C66_uniform_single_refuted",
    "C66_clamp"
   ],
   "note": ""
  },
  {
   "property": "C67",
   "status": "proved",
   "theorems": [
    "C67_reparametrize",
    "C67_reparametrize_refuted"
   ],
   "note": ""
  },
  {
   "property": "C68",
   "status": "proved",
   "theorems": [
    "C68_nearest_neighbours"
   ],
   "note": ""
  },
  {
   "property": "C69",
   "status": "proved",
   "theorems": [
    "C69_point",
    "C69_hull",
    "C69_tiny_weights_refuted"
   ],
   "note": ""
  },
  {
   "property": "C70",
   "status": "proved",
   "theorems": [
    "C70_derivatives",
    "C70_first_order",
    "C70_order_above_degree_refuted"
   ],
   "note": ""
  },
  {
   "property": "C71",
   "status": "proved",
   "theorems": [
    "C71_normal"
   ],
   "note": ""
  },
  {
   "property": "C72",
   "status": "proved",
   "theorems": [
    "C72_projection",
    "C72_small_patch_refuted"
   ],
   "note": ""
  },
  {
   "property": "C73",
   "status": "proved",
   "theorems": [
    "C73_curvatures",
    "C73_low_degree_refuted",
    "C73_small_patch_refuted"
   ],
   "note": ""
  },
  {
   "property": "C74",
   "status": "proved",
   "theorems": [
    "C74_bilinear"
   ],
   "note": ""
  },
  {
   "property": "C75",
   "status": "proved",
   "theorems": [
    "C75_cylinder"
   ],
   "note": ""
  },
  {
   "property": "C76",
   "status": "proved",
   "theorems": [
    "C76_ruled",
    "C76_edges",
    "C76_refused"
   ],
   "note": ""
  },
  {
   "property": "C77",
   "status": "proved",
   "theorems": [
    "C77_revolved",
    "C77_axis_length_refuted",
    "C77_near_axis_refuted"
   ],
   "note": ""
  },
  {
   "property": "C78",
   "status": "proved",
   "theorems": [
    "C78_scaling",
    "C78_weights_refuted"
   ],
   "note": ""
  },
  {
   "property": "C79",
   "status": "proved",
   "theorems": [
    "C79_curvature",
    "C79_arc_length",
    "C79_normals",
    "C79_refuted"
   ],
   "note": ""
  },
  {
   "property": "C80",
   "status": "proved",
   "theorems": [
    "C80_torsion",
    "C80_refuted"
   ],
   "note": ""
  },
  {
   "property": "C81",
   "status": "proved",
   "theorems": [
    "C81_reposition",
    "C81_reposition_any",
    "C81_refuted_end",
    "C81_refuted"
   ],
   "note": ""
  },
  {
   "property": "C82",
   "status": "proved",
   "theorems": [
    "C82_weight",
    "C82_refuted_end",
    "C82_refuted"
   ],
   "note": ""
  },
  {
   "property": "C83",
   "status": "proved",
   "theorems": [
    "C83_warp"
   ],
   "note": ""
  },
  {
   "property": "C84",
   "status": "proved",
   "theorems": [
    "C84_flatten",
    "C84_flat",
    "C84_refuted"
   ],
   "note": ""
  },
  {
   "property": "C85",
   "status": "proved",
   "theorems": [
    "C85_bend",
    "C85_circle"
   ],
   "note": ""
  },
  {
   "property": "C86",
   "status": "proved",
   "theorems": [
    "C86_unclamp"
   ],
   "note": ""
  },
  {
   "property": "C87",
   "status": "proved",
   "theorems": [
    "C87_is_clamp",
    "C87_refuted"
   ],
   "note": ""
  },
  {
   "property": "C88",
   "status": "proved",
   "theorems": [
    "C88_closed",
    "C88_refuted"
   ],
   "note": ""
  },
  {
   "property": "C89",
   "status": "proved",
   "theorems": [
    "C89_linear"
   ],
   "note": ""
  },
  {
   "property": "C90",
   "status": "proved",
   "theorems": [
    "C90_tessellate"
   ],
   "note": ""
  },
  {
   "property": "C91",
   "status": "proved",
   "theorems": [
    "C91_arc_found",
    "C91_arc_sound"
   ],
   "note": ""
  },
  {
   "property": "C92",
   "status": "proved",
   "theorems": [
    "C92_hermite"
   ],
   "note": ""
  },
  {
   "property": "C93",
   "status": "proved",
   "theorems": [
    "C93_periodic",
    "C93_clamped"
   ],
   "note": ""
  },
  {
   "property": "C94",
   "status": "proved",
   "theorems": [
    "C94_point",
    "C94_hull"
   ],
   "note": ""
  },
  {
   "property": "C95",
   "status": "proved",
   "theorems": [
    "C95_iso_curve",
    "C95_none"
   ],
   "note": ""
  },
  {
   "property": "C96",
   "status": "proved",
   "theorems": [
    "C96_insert_knot",
    "C96_too_often_refuted"
   ],
   "note": ""
  },
  {
   "property": "C97",
   "status": "proved",
   "theorems": [
    "C97_refine_refuted"
   ],
   "note": ""
  },
  {
   "property": "C98",
   "status": "proved",
   "theorems": [
    "C98_reverse",
    "C98_other_directions_refuted"
   ],
   "note": ""
  },
  {
   "property": "C99",
   "status": "proved",
   "theorems": [
    "C99_swap",
    "C99_other_orders_refuted"
   ],
   "note": ""
  },
  {
   "property": "C100",
   "status": "proved",
   "theorems": [
    "C100_split",
    "C100_at_the_ends",
    "C100_full_multiplicity_refuted"
   ],
   "note": ""
  },
  {
   "property": "C101",
   "status": "proved",
   "theorems": [
    "C101_elevate",
    "C101_repeated_knot_refuted"
   ],
   "note": ""
  },
  {
   "property": "C102",
   "status": "proved",
   "theorems": [
    "C102_derivatives_refuted",
    "C102_check_refuted",
    "C102_param_refuted",
    "C102_nan_refuted"
   ],
   "note": ""
  },
  {
   "property": "C103",
   "status": "proved",
   "theorems": [
    "C103_closed"
   ],
   "note": ""
  },
  {
   "property": "C104",
   "status": "proved",
   "theorems": [
    "C104_unchanged_refuted",
    "C104_inside_refuted",
    "C104_ends_refuted"
   ],
   "note": ""
  },
  {
   "property": "C105",
   "status": "proved",
   "theorems": [
    "C105_elevate",
    "C105_refused",
    "C105_elevate_double_refuted"
   ],
   "note": ""
  },
  {
   "property": "C106",
   "status": "proved",
   "theorems": [
    "C106_insert_remove",
    "C106_remove_full",
    "C106_lost_row_refuted"
   ],
   "note": ""
  },
  {
   "property": "C107",
   "status": "proved",
   "theorems": [
    "C107_elevate_reduce",
    "C107_close",
    "C107_refused"
   ],
   "note": ""
  },
  {
   "property": "C108",
   "status": "proved",
   "theorems": [
    "C108_samples",
    "C108_edges_refuted"
   ],
   "note": ""
  },
  {
   "property": "C109",
   "status": "proved",
   "theorems": [
    "C109_closed",
    "C109_folded_refuted"
   ],
   "note": ""
  },
  {
   "property": "C110",
   "status": "proved",
   "theorems": [
    "C110_returns",
    "C110_linear_refuted",
    "C110_outside_refuted"
   ],
   "note": ""
  },
  {
   "property": "C111",
   "status": "proved",
   "theorems": [
    "C111_sweep",
    "C111_sum",
    "C111_light_refuted"
   ],
   "note": ""
  },
  {
   "property": "C112",
   "status": "proved",
   "theorems": [
    "C112_passes",
    "C112_default",
    "C112_custom_refuted",
    "C112_count_refuted",
    "C112_knots_refuted",
    "C112_weights_refuted"
   ],
   "note": ""
  },
  {
   "property": "C113",
   "status": "proved",
   "theorems": [
    "C113_blend",
    "C113_open",
    "C113_left_refuted"
   ],
   "note": ""
  },
  {
   "property": "C114",
   "status": "proved",
   "theorems": [
    "C114_scale_refuted",
    "C114_straight",
    "C114_origin_refuted"
   ],
   "note": ""
  },
  {
   "property": "C115",
   "status": "proved",
   "theorems": [
    "C115_cubic",
    "C115_few",
    "C115_misses_refuted",
    "C115_line_refuted"
   ],
   "note": ""
  },
  {
   "property": "C116",
   "status": "proved",
   "theorems": [
    "C116_moves",
    "C116_negative_refuted",
    "C116_zero_refuted",
    "C116_last_refuted",
    "C116_scale_refuted"
   ],
   "note": ""
  },
  {
   "property": "C117",
   "status": "proved",
   "theorems": [
    "C117_open",
    "C117_line",
    "C117_closed_refuted",
    "C117_skew_refuted"
   ],
   "note": ""
  },
  {
   "property": "C118",
   "status": "proved",
   "theorems": [
    "C118_ends",
    "C118_inside",
    "C118_corner",
    "C118_straight",
    "C118_parabola_refuted",
    "C118_rounding_refuted"
   ],
   "note": ""
  },
  {
   "property": "C119",
   "status": "proved",
   "theorems": [
    "C119_found",
    "C119_segment",
    "C119_outside_refuted",
    "C119_missed_refuted"
   ],
   "note": ""
  },
  {
   "property": "C120",
   "status": "proved",
   "theorems": [
    "C120_points",
    "C120_polyline",
    "C120_flat_refuted"
   ],
   "note": ""
  },
  {
   "property": "C121",
   "status": "proved",
   "theorems": [
    "C121_straight",
    "C121_polyline",
    "C121_simpson_ends",
    "C121_simpson",
    "C121_folded_refuted",
    "C121_blind_refuted"
   ],
   "note": ""
  },
  {
   "property": "C122",
   "status": "proved",
   "theorems": [
    "C122_length",
    "C122_segment",
    "C122_long_refuted",
    "C122_extra_cut_refuted",
    "C122_negative_refuted"
   ],
   "note": ""
  },
  {
   "property": "C123",
   "status": "proved",
   "theorems": [
    "C123_found",
    "C123_segment",
    "C123_missed_refuted",
    "C123_closed_refuted"
   ],
   "note": ""
  },
  {
   "property": "C124",
   "status": "proved",
   "theorems": [
    "C124_end",
    "C124_start",
    "C124_unchanged",
    "C124_segment",
    "C124_slow_refuted"
   ],
   "note": ""
  },
  {
   "property": "C125",
   "status": "proved",
   "theorems": [
    "C125_derivatives",
    "C125_single",
    "C125_all_fixed_refuted",
    "C125_weights_refuted"
   ],
   "note": ""
  },
  {
   "property": "C126",
   "status": "proved",
   "theorems": [
    "C126_optimum",
    "C126_unit_weights",
    "C126_failure",
    "C126_weights_refuted"
   ],
   "note": ""
  },
  {
   "property": "C127",
   "status": "proved",
   "theorems": [
    "C127_optimum",
    "C127_failure",
    "C127_two_refuted",
    "C127_many_refuted"
   ],
   "note": ""
  },
  {
   "property": "C128",
   "status": "proved",
   "theorems": [
    "C128_returns",
    "C128_failure",
    "C128_shape",
    "C128_fitted",
    "C128_corners",
    "C128_refuted"
   ],
   "note": ""
  },
  {
   "property": "C129",
   "status": "proved",
   "theorems": [
    "C129_zero",
    "C129_tiller",
    "C129_tiller_returns",
    "C129_weights_refuted",
    "C129_straight_refuted",
    "C129_segment_refuted",
    "C129_piegl",
    "C129_piegl_returns"
   ],
   "note": ""
  },
  {
   "property": "C130",
   "status": "proved",
   "theorems": [
    "C130_simple",
    "C130_shape",
    "C130_ends",
    "C130_result",
    "C130_unchecked_refuted",
    "C130_corner_refuted"
   ],
   "note": ""
  },
  {
   "property": "C131",
   "status": "proved",
   "theorems": [
    "C131_bound",
    "C131_zero",
    "C131_inserted",
    "C131_linear",
    "C131_quadratic",
    "C131_ends_refuted",
    "C131_model_space_refuted"
   ],
   "note": ""
  },
  {
   "property": "C132",
   "status": "proved",
   "theorems": [
    "C132_shape",
    "C132_validation",
    "C132_last_knot_refuted",
    "C132_errors_refuted",
    "C132_approximation",
    "C132_degree_one_refuted",
    "C132_points_refuted"
   ],
   "note": ""
  },
  {
   "property": "C133",
   "status": "proved",
   "theorems": [
    "C133_span",
    "C133_remove",
    "C133_excessive",
    "C133_elevate",
    "C133_given_bound",
    "C133_approximation"
   ],
   "note": ""
  },
  {
   "property": "C134",
   "status": "proved",
   "theorems": [
    "C134_sound",
    "C134_chord_refuted",
    "C134_planar_refuted",
    "C134_nan_refuted"
   ],
   "note": ""
  },
  {
   "property": "C135",
   "status": "proved",
   "theorems": [
    "C135_tangents",
    "C135_fit",
    "C135_circle",
    "C135_end_tangent_refuted"
   ],
   "note": ""
  },
  {
   "property": "C136",
   "status": "proved",
   "theorems": [
    "C136_pair",
    "C136_never_refuted",
    "C136_window_refuted",
    "C136_far_refuted",
    "C136_planar_refuted"
   ],
   "note": ""
  },
  {
   "property": "C137",
   "status": "proved",
   "theorems": [
    "C137_bounds",
    "C137_flat",
    "C137_range_refuted"
   ],
   "note": ""
  },
  {
   "property": "C138",
   "status": "proved",
   "theorems": [
    "C138_mesh",
    "C138_range_refuted",
    "C138_single_refuted",
    "C138_nan_refuted"
   ],
   "note": ""
  },
  {
   "property": "C139",
   "status": "proved",
   "theorems": [
    "C139_value",
    "C139_returns",
    "C139_flat",
    "C139_linear_refuted",
    "C139_outside_refuted"
   ],
   "note": ""
  },
  {
   "property": "C140",
   "status": "proved",
   "theorems": [
    "C140_patches",
    "C140_torn_refuted",
    "C140_unclamped_refuted"
   ],
   "note": ""
  },
  {
   "property": "C141",
   "status": "proved",
   "theorems": [
    "C141_rule",
    "C141_bounds",
    "C141_flat",
    "C141_torn_refuted"
   ],
   "note": ""
  },
  {
   "property": "C142",
   "status": "proved",
   "theorems": [
    "C142_rule",
    "C142_bounds",
    "C142_multiplicity_refuted"
   ],
   "note": ""
  }
 ]
}