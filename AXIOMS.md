# What Print Assumptions lists for each theorem

Generated by tools/axioms.py.

## no axioms

C19_lerp_int_overflow, C23_clippedBetween_int, C27_randAmplitude2_int, C27_randAmplitude_int, C27_randBetween_int, C27_rand_int, C27_rand_zero_undefined, C48_transpose, C62_rgb_rgba, C62_rgba_rgb, C64_other_transforms, C65_transposed, C69_mat2_data, C69_mat34_columns, C69_mat3_data, C69_mat4_columns, C69_mat4_data, C69_vec2_access, C69_vec3_access, C69_vec4_access, C74_of, C75_cyclic, C75_tridiagonal, C75_vectors, C77_components, C77_frustum, C78_aabb2_add, C78_aabb2_minus, C78_aabb2_plus, C78_aabb2_set, C78_aabb2_set_point, C78_aabb3_add, C78_aabb3_minus, C78_aabb3_plus, C78_aabb3_set, C78_aabb3_set_point, C78_bezier_set, C78_bezier_split, C78_caabb2_minus, C78_caabb2_plus, C78_caabb2_set, C78_caabb3_minus, C78_caabb3_plus, C78_caabb3_set, C78_circle_minus, C78_circle_plus, C78_circle_set, C78_hermite_set, C78_hsv_interpolation, C78_mat2_mul_assign, C78_mat2_mul_assign_self, C78_mat2_multiply, C78_mat2_multiply_self, C78_mat2_scale, C78_mat2_set, C78_mat2_transform, C78_mat2_transform_array, C78_mat2_transform_self, C78_mat34_make, C78_mat34_multiply, C78_mat34_multiply_self, C78_mat34_of_quat, C78_mat34_rotation, C78_mat34_scale, C78_mat34_scalePre, C78_mat34_set, C78_mat34_transform, C78_mat34_transformPre, C78_mat34_transformPre_mat3, C78_mat34_transform_array, C78_mat34_transform_mat3, C78_mat34_transform_point, C78_mat34_translate, C78_mat34_translatePre, C78_mat3_mul_assign, C78_mat3_mul_assign_self, C78_mat3_multiply, C78_mat3_multiply_self, C78_mat3_rotate, C78_mat3_rotation, C78_mat3_scale, C78_mat3_set, C78_mat3_transform, C78_mat3_transform_array, C78_mat3_transform_self, C78_mat4_multiply, C78_mat4_multiply_self, C78_mat4_set, C78_mat4_transform, C78_mat4_transformPre, C78_mat4_transformVector, C78_mat4_transformVector_array, C78_mat4_transformVector_vec4, C78_mat4_transformVector_vec4_array, C78_mat4_transform_array, C78_mat4_transform_point, C78_mat4_transform_vec4, C78_mat4_transform_vec4_array, C78_plane_set_normal, C78_plane_set_plane, C78_plane_set_point, C78_plane_set_points, C78_plane_set_tangents, C78_quat_lerp, C78_quat_slerp, C78_quat_slerpNoInvert, C78_rgb_add, C78_rgb_interpolation, C78_rgb_sub, C78_rgba_add, C78_rgba_interpolation, C78_rgba_sub, C78_sphere_minus, C78_sphere_plus, C78_sphere_set, C78_vec2_add, C78_vec2_clerp, C78_vec2_clerpMaxAngle, C78_vec2_mul_mat, C78_vec2_sub, C78_vec3_add, C78_vec3_cross, C78_vec3_mul_mat, C78_vec3_slerp, C78_vec3_slerpMaxAngle, C78_vec3_sub, C78_vec4_add, C78_vec4_sub, C79_mat4_stale, C80_boxes_meet_symmetric, C80_differs, C80_transpose, C88_frustum, C88_parts, C88_symmetric, C89_bezierSpline, C89_closedSpline, C89_cyclic, C89_gaussJordan, C89_gaussJordan_vec2, C89_gaussJordan_vec3, C89_naturalSpline, C89_tridiagonal, C89_vectors, C90_bezierSpline_partial, C90_bezierSpline_refuted, C90_closedSpline_partial, C90_cyclic_partial, C90_cyclic_refuted, C90_gaussJordan_partial, C90_gaussJordan_refuted, C90_naturalSpline_partial, C90_naturalSpline_refuted, C90_tridiagonal, C90_vectors, C91_bezierSpline_partial, C91_closedSpline_partial, C91_naturalSpline_partial, C96_rotated_columns, C98_always, C98_before, C98_final, C98_functions_after, C98_initialised, C98_once, C98_safe_functions, C98_zero_matrices, C99_corners, C99_describe, C99_enough, C99_objects

## `ClassicalDedekindReals.sig_forall_dec`

C69_mat34_data, C69_next

## `ClassicalDedekindReals.sig_forall_dec`, `FunctionalExtensionality.functional_extensionality_dep`

C100_residual, C69_next_right_handed, C99_matrices_partial, C99_not_finite, C99_value

## `ClassicalDedekindReals.sig_forall_dec`, `ClassicalDedekindReals.sig_not_dec`, `Classical_Prop.classic`, `FunctionalExtensionality.functional_extensionality_dep`

C01_tridiagonal_solution, C02_regular_matrix_refused, C02_tridiagonal_failure, C03_vec3_tridiagonal, C04_cyclic_solution, C04_singular_system_refuted, C04_small_sizes_refused, C05_gauss_jordan_solution, C05_gauss_jordan_vec2, C05_gauss_jordan_vec3, C06_gauss_jordan_false_iff_singular, C07_inverse_refuted, C07_left_in_a, C08_hermite_basis, C08_hermite_segment, C09_bezier_basis, C09_bezier_convex_hull, C09_bezier_segment, C100_determinant, C100_mat2, C100_mat2_singular, C100_mat3, C100_mat3_singular_partial, C100_mat3_singular_refuted, C100_mat4, C100_mat4_flagged, C100_mat4_singular_partial, C101_length, C101_split, C101_split_ends, C101_vector_length, C101_walk_end_refuted, C101_walk_point, C101_walk_tangent, C102_closed_spline, C102_fabsf_double, C102_fabsf_float, C102_gauss_jordan, C102_small_refuted, C102_vec2, C102_vec3, C103_inverse, C103_lerp, C103_libraries, C103_matrix, C103_matrix_slerp, C103_normalize, C103_orthonormalise, C103_product, C103_quaternion, C103_rotated, C103_slerp, C104_distance, C104_from_point, C104_from_points, C104_from_tangents, C104_frustum, C104_narrow_double, C104_narrow_float, C104_project, C104_region, C105_line2_distance, C105_line3_distance, C105_lines, C105_literal_double, C105_literal_float, C105_plane_line, C105_plane_line_radius, C105_plane_ray, C105_ray2_distance, C105_ray3_distance, C105_three_planes, C106_box2_cut_line, C106_box2_cut_ray, C106_box2_hit_line, C106_box2_hit_ray, C106_box3_cut_line, C106_box3_cut_ray, C106_box3_hit_line, C106_box3_hit_ray, C106_limit, C106_sphere_hit, C106_sphere_miss, C107_added2, C107_added3, C107_added_refuted, C107_area, C107_center_inside2, C107_center_inside3, C107_centered2, C107_centered3, C107_centered_area, C107_centered_inner2, C107_centered_inner3, C107_centered_outer2, C107_centered_outer3, C107_centered_point2, C107_centered_point3, C107_centered_refuted, C107_centered_volume, C107_cornered2, C107_cornered3, C107_inner2, C107_inner3, C107_measures2, C107_measures3, C107_moved_inside2, C107_moved_inside3, C107_outer2, C107_outer3, C107_outer_refuted, C107_point_refuted, C107_scaled2, C107_scaled3, C107_volume, C108_apply, C108_chain, C108_compose_refuted, C108_identity_invert, C108_invert, C108_mul, C108_post_m3, C108_pre_m3, C108_rigid_invert, C108_round_trip, C108_scalePre, C108_transform, C108_transformPre, C108_translate, C108_translatePre, C108_undo_refuted, C109_centered_half_refuted, C109_centered_inside_refuted, C109_clerp, C109_double, C109_float, C109_fmodCentered, C109_long_way_double_refuted, C109_response, C109_response_close, C109_response_rejects, C10_bezier_split, C10_bezier_split_asserts, C110_axis_angle, C110_axis_back, C110_axis_rejects, C110_between, C110_between_turns, C110_double, C110_exp, C110_exp_zero, C110_float, C110_log, C110_log_exp, C110_opposite_refuted, C110_slerpNoInvert, C110_small_lost_refuted, C111_arithmetic, C111_bytes, C111_eased, C111_hsv, C111_hue_refuted, C111_lerp, C111_lerp2, C111_lerp3, C111_lerp_end_refuted, C111_pointAt2, C111_pointAt3, C111_pointAt_end_refuted, C111_quotient, C111_rgb, C111_rgba, C111_unit, C112_double, C112_easing, C112_exact, C112_float, C112_lerp, C112_lerp2, C112_lerp3, C112_libraries, C112_plain, C112_range, C113_back, C113_clerp, C113_formats, C113_libraries, C113_limit_refuted, C113_matrix_angle, C113_slerp, C114_beyond_refuted, C114_double, C114_eased, C114_float, C114_lerp, C114_modes, C11_forward_differences, C11_forward_differences_any_step, C12_bezier_length_asserts, C12_bezier_length_bounds, C12_bezier_length_is_polyline, C13_natural_spline, C13_natural_spline_asserts, C14_clamped_spline, C14_clamped_spline_asserts, C15_closed_spline_asserts, C15_closed_spline_partial, C15_closed_two_points_refuted, C16_ends_double, C16_ends_float, C16_saturates, C17_deviation_bound, C17_monotone_double, C17_monotone_double_refuted, C17_monotone_float, C17_monotone_float_refuted, C17_monotone_inside, C17_monotone_unit_partial, C17_range_double_partial, C17_range_double_refuted, C17_range_float_partial, C17_range_float_refuted, C17_rounded_modes_refuted, C18_exponential_half_refuted, C18_mirror_partial, C19_end_double_refuted, C19_end_float_refuted, C19_equal_double, C19_equal_float, C19_int_eased, C19_lerp, C19_lerp_eased, C19_lerp_int, C19_lerp_vectors, C19_monotone_double, C19_monotone_float, C19_side_double_partial, C19_side_float_partial, C19_start_double, C19_start_float, C19_vectors_eased, C20_clerp_partial, C20_long_way_refuted, C21_clerpMaxAngle_partial, C21_clerpMaxAngle_same, C21_clerpMaxAngle_turn_partial, C21_ratio_double_refuted, C21_ratio_float_refuted, C21_reported_ratio_refuted, C22_fmodCentered, C22_fmodPositive, C22_fmodPositive_double, C22_fmodPositive_double_refuted, C22_fmodPositive_float, C22_fmodPositive_float_refuted, C22_fmod_double, C22_fmod_float, C22_fmod_needs_positive_modulus, C23_abs_double, C23_abs_float, C23_clippedBetween, C23_clipped_double, C23_clipped_float, C23_min_max, C23_min_max_double, C23_min_max_float, C24_evaluate, C24_evaluate_rejects, C25_degrees, C25_parts_of_pi, C26_acos, C26_asin, C27_rand_real, C27_real_amplitude_never_negative, C28_orientation, C28_textbook, C28_vec2_products, C28_vec3_products, C29_normalize_double_refuted, C29_normalize_float_refuted, C29_vec2_normalize, C29_vec3_normalize, C30_undefined_axis, C30_vec2_rotate, C30_vec3_rotate, C31_cross_axis, C31_cross_coord, C32_constructor_refuted, C32_embedding_partial, C33_coords_plane_double, C33_coords_plane_float, C33_coords_space_double, C33_coords_space_float, C33_vec2_major_minor, C33_vec3_major_minor, C34_intersection, C35_slerpMaxAngle_acute_partial, C35_slerpMaxAngle_opposite_refuted, C35_slerp_acute_partial, C35_slerp_ends, C35_slerp_flat, C35_slerp_null, C35_slerp_obtuse, C35_slerp_obtuse_refuted, C36_apply, C36_division_by_zero, C36_divisions, C36_mat2_product, C36_mat2_self_assignment_refuted, C36_mat3_product, C36_mat3_self_assignment_refuted, C36_mat4_product, C36_scalar_operations, C36_transform_in_place_refuted, C37_default_tolerance, C37_mat2_queries, C37_mat2_results, C37_mat34_queries, C37_mat3_queries, C37_mat3_results, C37_mat4_general, C37_mat4_optimize, C37_mat4_orthogonal_refuted, C37_optimize, C37_scalar_constructor, C37_scalar_constructor_refuted, C37_setIdentity, C37_shortcut_error, C38_identity_bit_any, C38_mat2_history, C38_mat3_history_coord_partial, C38_mat3_history_partial, C38_mat4_history, C38_mat4_scalar_refuted, C38_product_refuted, C38_rotate_coord_refuted, C38_transposed_refuted, C39_adjoint, C39_determinant, C39_determinant_laws, C39_mat2_inverse, C39_mat3_inverse, C39_mat4_inverse_partial, C39_mat4_inverse_refuted, C40_mat3_invert, C40_mat3_invert_error, C40_mat4_invert_partial, C40_mat4_uninitialized_refuted, C41_axis_angle, C41_coordinate_axis, C41_mat2, C41_mat4, C41_null_axis_refuted, C41_two_columns, C41_two_columns_degenerate, C41_unit_quaternion, C42_inverse, C42_matrix, C42_product, C42_rotated_coord, C42_times_vector, C42_times_vector_refuted, C43_round_trip, C44_between_partial, C44_near_partial, C44_opposite, C44_opposite_refuted, C45_lerp, C45_slerpMaxAngle_partial, C45_slerpMaxAngle_refuted, C45_slerpNoInvert, C45_slerp_arc, C45_slerp_near_partial, C45_slerp_outside, C45_squad_ends, C46_division_partial, C46_division_refuted, C47_axis_angle_partial, C47_exp_log, C47_exp_log_minus_one_refuted, C47_of_axis_angle, C47_of_axis_zero, C47_small, C47_small_refuted, C48_apply, C48_constructors, C48_coordinate_axis, C48_equality, C48_invert, C48_invert_singular, C48_invert_tolerance_refuted, C48_opposite, C48_product, C48_product_error, C48_slerp_translation_refuted, C48_transform, C48_transform_mat3, C48_two_columns, C49_apply, C49_copies, C49_mat34_scale_refuted, C49_mat4_compose, C49_mat4_scale_refuted, C49_rotate_mat34, C49_rotate_mat34_coord, C49_rotate_mat34_quat, C49_rotate_mat4, C49_rotate_mat4_coord, C49_rotate_mat4_quat, C49_scalePre, C49_scale_partial, C49_small_angle, C49_small_rotation_dropped, C49_small_rotation_refuted, C49_translate, C50_add_double, C50_add_float, C50_add_plane, C50_add_space, C50_equality_plane, C50_equality_space, C50_intersection_double_partial, C50_intersection_float_partial, C50_intersection_plane_partial, C50_intersection_plane_refuted, C50_intersection_space_partial, C50_intersection_space_refuted, C50_makers_plane, C50_makers_space, C50_point_at_plane, C50_point_at_space, C50_points_plane, C50_points_plane_double, C50_points_plane_float, C50_points_space, C50_points_space_double, C50_points_space_float, C50_scale_plane, C50_scale_space, C50_size_plane, C50_size_space, C50_tests_plane_double, C50_tests_plane_float, C50_tests_space_double, C50_tests_space_float, C50_translation_plane, C50_translation_space, C50_union_double, C50_union_float, C50_union_plane, C50_union_space, C51_contains_box_plane, C51_contains_box_space, C51_contains_point_plane, C51_contains_point_space, C51_contains_sphere, C51_intersects_plane, C51_intersects_space, C52_ray_bounded_plane, C52_ray_bounded_space, C52_ray_plane, C52_ray_space, C52_segment_plane, C52_segment_space, C53_hit_ray_plane_partial, C53_hit_ray_space_partial, C53_hit_segment_plane_partial, C53_hit_segment_space_partial, C53_invented_ray_refuted, C53_invented_segment_refuted, C53_missed_ray_refuted, C53_missed_segment_refuted, C54_add_plane, C54_add_space, C54_algebra_plane, C54_algebra_space, C54_conversions_plane, C54_conversions_space, C54_points_plane, C54_points_space, C54_queries_plane, C54_queries_space, C54_rest_plane, C54_rest_space, C55_circle_points_ieee, C55_contains_circle, C55_contains_sphere, C55_equality_circle, C55_equality_sphere, C55_hit_circle, C55_hit_sphere, C55_includes_circle, C55_includes_sphere, C55_intersects_circle, C55_intersects_sphere, C55_makers_circle, C55_makers_sphere, C55_operators_circle, C55_operators_sphere, C55_points_circle, C55_points_sphere, C55_sphere_points_ieee, C56_agree, C56_decides_partial, C56_hit, C56_inside, C56_null, C56_on, C56_refuted, C57_constants, C57_contains, C57_degenerate, C57_equality, C57_flipped, C57_from_normal, C57_from_point, C57_from_points, C57_from_tangents, C57_local_m34, C57_local_m4, C57_moved, C57_project, C57_project_along_ieee_partial, C57_project_along_partial, C57_project_along_refuted, C57_project_along_refuted_double, C57_project_along_refuted_float, C58_flat_refuted, C58_hits_line, C58_hits_ray, C58_intersects_line_partial, C58_intersects_ray_partial, C58_single_point_partial, C58_single_point_refuted, C58_sphere, C59_mirrored_refuted, C59_set, C59_set_m34, C59_set_m4, C59_sphere_refuted, C60_line2, C60_line3_partial, C60_line3_refuted, C60_ray2, C60_ray3_partial, C60_ray_refuted, C61_contains_partial, C61_flat, C61_flat_refuted, C61_orientation, C62_grey, C62_rgba_toHSV, C62_round_double, C62_round_double_refuted, C62_round_error, C62_round_error_float, C62_round_float, C62_round_float_refuted, C62_round_hsv, C62_round_hsv_any, C62_round_rgb, C62_round_rgba, C62_toHSV, C62_toHSV_double_partial, C62_toHSV_double_refuted, C62_toHSV_error, C62_toHSV_error_float, C62_toHSV_float_partial, C62_toHSV_float_refuted, C62_toRGB, C62_toRGBA, C62_toRGB_double_partial, C62_toRGB_double_refuted, C62_toRGB_error, C62_toRGB_error_float, C62_toRGB_float_partial, C62_toRGB_float_refuted, C62_toRGB_total, C62_turns, C62_unit_hsv, C62_unit_rgb, C63_hsv, C63_hsv_far_refuted, C63_hsv_unit, C63_rgb, C63_rgba, C64_mat2_transform, C64_mat3_transform, C64_out_of_range, C65_row_product, C66_polar, C67_clerpMaxAngle_length_refuted, C67_vec2_clerp, C67_vec2_clerp_rejects, C67_vec2_clerp_turn_partial, C68_frenet_frame, C68_frenet_range, C69_constants, C69_matrix_equality, C69_mirrored_refuted, C69_moved_mirrored, C69_multiples, C69_pointwise, C69_vec4_rest, C69_vector_equality, C70_cross_of_points, C70_distance, C70_metric_plane, C70_metric_space, C71_all_directions2_refuted, C71_all_directions_refuted, C71_random_unit, C71_random_unit2, C71_random_unit2_loop, C71_random_unit_loop, C72_inner_plane, C72_inner_space, C72_outer_plane, C72_outer_space, C73_equality, C73_line2, C73_line3, C73_rays, C74_constants, C74_equality, C74_of_int, C74_random, C74_random_ends, C74_rgb, C74_rgba, C75_closedSpline_double, C75_gaussJordan_double_partial, C76_bezierSpline_double, C76_naturalSpline_double, C77_balls, C77_boxes_narrow, C77_circle_refuted, C77_matrices, C77_matrix_roundtrip, C77_narrow_nearest, C77_rays, C77_roundtrip, C77_widen, C77_widen_exact, C78_boxes_refuted, C78_columns_refuted, C78_corners_refuted, C78_planes_refuted, C78_products_refuted, C78_quat_translation_refuted, C78_scale_refuted, C78_splines_refuted, C78_transform_mat4_refuted, C78_transform_point_refuted, C79_mat34_optimize, C79_mat34_refuted, C79_mat34_stale, C79_mat4_optimize, C79_mat4_refuted, C80_balls_meet_symmetric, C80_distance_symmetric, C80_equality, C80_formats, C80_opposite, C80_product_transposed, C80_symmetric, C81_cross_error, C81_distance_error, C81_dot_error, C81_gamma, C81_length_error, C81_normalize2_error, C81_normalize3_error, C81_normalized_length2, C81_normalized_length3, C81_normalizeq_error, C82_apply_error, C82_long_product, C82_product_error, C82_quat_product_error, C83_bezier_ends, C83_bezier_point, C83_bezier_tangent, C83_hermite_ends, C83_hermite_point, C83_hermite_tangent, C84_tridiagonal, C84_vectors, C85_clamped_spline, C85_natural_spline, C86_clamped_unique, C86_closed_unique, C86_natural_unique, C87_boxes2, C87_boxes3, C87_circles, C87_determinants, C87_matrix_products, C87_matrix_vector, C87_plane_distance, C87_products, C87_spheres, C87_sums, C87_triangle, C88_finite, C88_float, C88_float_nan, C88_infinite, C88_margin, C88_nan, C88_objects, C89_bezierSpline_double, C89_closedSpline_double, C89_gaussJordan_double, C89_naturalSpline_double, C90_closedSpline_result_refuted, C90_cyclic_result_refuted, C91_bezierSpline_refuted, C91_naturalSpline_refuted, C92_boxes_complete2, C92_boxes_complete3, C92_boxes_sound2, C92_boxes_sound3, C92_circle_in_circle, C92_circles_meet, C92_distance, C92_plane_line, C92_plane_side, C92_plane_sphere, C92_point_in_circle, C92_point_in_sphere, C92_sphere_in_sphere, C92_spheres_meet, C92_triangle, C93_box_cuts, C93_box_hits, C93_other_hits_partial, C93_plane_line, C93_plane_ray, C93_sphere_line_float_refuted, C93_sphere_line_partial, C93_sphere_line_refuted, C94_angles_double, C94_angles_float, C94_clamped_calls, C94_constants_double, C94_constants_float, C94_degrees_and_back, C94_degrees_back_refuted, C94_degrees_monotone, C94_degrees_odd, C94_pi, C94_radians_and_back, C94_radians_monotone, C94_radians_odd, C94_thirds_double_refuted, C94_thirds_float, C94_to_degrees, C94_to_radians, C95_amplitude_error, C95_amplitude_range, C95_between_error, C95_between_low, C95_colors, C95_counters, C95_directions2, C95_directions3, C95_hsv_double, C95_hsv_float, C95_rand_error, C95_rand_float, C95_rand_monotone, C95_rand_one, C95_rand_sign, C95_range_double_refuted, C95_range_float_refuted, C96_angle, C96_mat2, C96_mat2_flags, C96_mat3_axis, C96_mat3_axis_flags, C96_mat3_coord, C96_mat3_coord_flags, C96_mat3_orthonormal, C96_mat4_axis, C96_mat4_axis_flags, C96_mat4_coord, C96_mat4_coord_flags, C96_precise, C96_quaternion, C96_rotate2, C96_rotate3, C96_trig, C97_mat2_angle, C97_mat2_angle_of_rotation, C97_mat2_long_way_refuted, C97_mat2_orthonormalise, C97_mat2_rotation_of_angle, C97_mat2_slerpMaxAngle_partial, C97_mat2_slerp_partial, C97_mat34_slerpMaxAngle_partial, C97_mat34_slerp_partial, C97_mat3_orthonormalise, C97_mat3_slerp, C97_mat3_slerpMaxAngle_partial, C97_mat3_slerpMaxAngle_refuted, C97_mat4_orthonormalise, C98_easing_early_refuted, C98_identity_early_refuted, C99_digits, C99_exact, C99_failed, C99_float_up, C99_matrices_refuted
