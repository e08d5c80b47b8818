{
 "claims": [
  {
   "property": "C01",
   "status": "proved",
   "theorems": [
    "C01_tridiagonal_solution"
   ],
   "note": "Total correctness over checked arrays, aliased right-hand side included."
  },
  {
   "property": "C02",
   "status": "proved",
   "theorems": [
    "C02_tridiagonal_failure",
    "C02_regular_matrix_refused"
   ],
   "note": "Leading minors stated as singularity of leading blocks."
  },
  {
   "property": "C03",
   "status": "proved",
   "theorems": [
    "C03_vec3_tridiagonal"
   ],
   "note": ""
  },
  {
   "property": "C04",
   "status": "proved",
   "theorems": [
    "C04_cyclic_solution",
    "C04_small_sizes_refused",
    "C04_singular_system_refuted"
   ],
   "note": "Findings: a singular system is accepted (C04_singular_system_refuted)."
  },
  {
   "property": "C05",
   "status": "proved",
   "theorems": [
    "C05_gauss_jordan_solution",
    "C05_gauss_jordan_vec2",
    "C05_gauss_jordan_vec3"
   ],
   "note": ""
  },
  {
   "property": "C06",
   "status": "proved",
   "theorems": [
    "C06_gauss_jordan_false_iff_singular"
   ],
   "note": ""
  },
  {
   "property": "C07",
   "status": "proved",
   "theorems": [
    "C07_left_in_a",
    "C07_inverse_refuted"
   ],
   "note": "Header promise of an inverse refuted; exact content proved."
  },
  {
   "property": "C08",
   "status": "proved",
   "theorems": [
    "C08_hermite_segment",
    "C08_hermite_basis"
   ],
   "note": ""
  },
  {
   "property": "C09",
   "status": "proved",
   "theorems": [
    "C09_bezier_segment",
    "C09_bezier_convex_hull",
    "C09_bezier_basis"
   ],
   "note": ""
  },
  {
   "property": "C10",
   "status": "proved",
   "theorems": [
    "C10_bezier_split",
    "C10_bezier_split_asserts"
   ],
   "note": ""
  },
  {
   "property": "C11",
   "status": "proved",
   "theorems": [
    "C11_forward_differences",
    "C11_forward_differences_any_step"
   ],
   "note": ""
  },
  {
   "property": "C12",
   "status": "proved",
   "theorems": [
    "C12_bezier_length_is_polyline",
    "C12_bezier_length_bounds",
    "C12_bezier_length_asserts"
   ],
   "note": ""
  },
  {
   "property": "C13",
   "status": "proved",
   "theorems": [
    "C13_natural_spline",
    "C13_natural_spline_asserts"
   ],
   "note": ""
  },
  {
   "property": "C14",
   "status": "proved",
   "theorems": [
    "C14_clamped_spline",
    "C14_clamped_spline_asserts"
   ],
   "note": ""
  },
  {
   "property": "C15",
   "status": "partial",
   "theorems": [
    "C15_closed_spline_partial",
    "C15_closed_two_points_refuted",
    "C15_closed_spline_asserts"
   ],
   "note": "Proved for every n>=3; for n=2 the property is false of the code (C15_closed_two_points_refuted)."
  },
  {
   "property": "C16",
   "status": "proved",
   "theorems": [
    "C16_ends_double",
    "C16_saturates",
    "C16_ends_float"
   ],
   "note": "Over R, in doubles and in floats for every libm."
  },
  {
   "property": "C17",
   "status": "partial",
   "theorems": [
    "C17_monotone_double",
    "C17_range_double_partial",
    "C17_range_double_refuted",
    "C17_monotone_double_refuted",
    "C17_monotone_unit_partial",
    "C17_rounded_modes_refuted",
    "C17_deviation_bound",
    "C17_monotone_inside",
    "C17_monotone_float",
    "C17_range_float_partial",
    "C17_range_float_refuted",
    "C17_monotone_float_refuted"
   ],
   "note": "Proved for 26 of 29 modes; refuted, with a bound on the deviation, for the three modes using rounded constants. Doubles and floats: range for 16 modes, order for 13; four polynomial modes refuted (C17_range_double_refuted, C17_monotone_double_refuted)."
  },
  {
   "property": "C18",
   "status": "partial",
   "theorems": [
    "C18_mirror_partial",
    "C18_exponential_half_refuted"
   ],
   "note": "Fails only for the Exponential family at t=1/2, shown by C18_exponential_half_refuted."
  },
  {
   "property": "C19",
   "status": "partial",
   "theorems": [
    "C19_vectors_eased",
    "C19_int_eased",
    "C19_start_double",
    "C19_monotone_double",
    "C19_side_double_partial",
    "C19_equal_double",
    "C19_end_double_refuted",
    "C19_lerp",
    "C19_lerp_int",
    "C19_lerp_int_overflow",
    "C19_lerp_eased",
    "C19_lerp_vectors",
    "C19_start_float",
    "C19_monotone_float",
    "C19_side_float_partial",
    "C19_equal_float",
    "C19_end_float_refuted"
   ],
   "note": "Proved over R and for the int version. In doubles and floats, ends below max/4: start, order, equal ends and the start's side are proved; the end is refuted (C19_end_double_refuted, C19_end_float_refuted)."
  },
  {
   "property": "C20",
   "status": "partial",
   "theorems": [
    "C20_clerp_partial",
    "C20_long_way_refuted"
   ],
   "note": "Ends proved in all cases; shortest arc proved for to-from >= -PI and refuted below."
  },
  {
   "property": "C21",
   "status": "partial",
   "theorems": [
    "C21_ratio_double_refuted",
    "C21_clerpMaxAngle_partial",
    "C21_clerpMaxAngle_turn_partial",
    "C21_clerpMaxAngle_same",
    "C21_reported_ratio_refuted",
    "C21_ratio_float_refuted"
   ],
   "note": "Bound proved for all inputs; reaching the target needs to-from >= -PI (same defect as C20); the reported ratio is refuted."
  },
  {
   "property": "C22",
   "status": "partial",
   "theorems": [
    "C22_fmod_double",
    "C22_fmodPositive_double",
    "C22_fmodPositive_double_refuted",
    "C22_fmodPositive",
    "C22_fmodCentered",
    "C22_fmod_needs_positive_modulus",
    "C22_fmod_float",
    "C22_fmodPositive_float",
    "C22_fmodPositive_float_refuted"
   ],
   "note": "Proved over R. In doubles and floats fmod is exact and fmodPositive is the remainder rounded; it can round up to y (C22_fmodPositive_double_refuted)."
  },
  {
   "property": "C23",
   "status": "proved",
   "theorems": [
    "C23_min_max_double",
    "C23_clipped_double",
    "C23_abs_double",
    "C23_min_max",
    "C23_clippedBetween",
    "C23_clippedBetween_int",
    "C23_min_max_float",
    "C23_clipped_float",
    "C23_abs_float"
   ],
   "note": "Over R and for every non-NaN double and float."
  },
  {
   "property": "C24",
   "status": "proved",
   "theorems": [
    "C24_evaluate",
    "C24_evaluate_rejects"
   ],
   "note": ""
  },
  {
   "property": "C25",
   "status": "proved",
   "theorems": [
    "C25_parts_of_pi",
    "C25_degrees"
   ],
   "note": ""
  },
  {
   "property": "C26",
   "status": "proved",
   "theorems": [
    "C26_asin",
    "C26_acos"
   ],
   "note": ""
  },
  {
   "property": "C27",
   "status": "proved",
   "theorems": [
    "C27_rand_int",
    "C27_randBetween_int",
    "C27_randAmplitude_int",
    "C27_randAmplitude2_int",
    "C27_rand_real",
    "C27_real_amplitude_never_negative",
    "C27_rand_zero_undefined"
   ],
   "note": "Finding: the Real randAmplitude(from,to) never yields negative values."
  },
  {
   "property": "C28",
   "status": "proved",
   "theorems": [
    "C28_vec2_products",
    "C28_vec3_products",
    "C28_orientation",
    "C28_textbook"
   ],
   "note": ""
  },
  {
   "property": "C29",
   "status": "partial",
   "theorems": [
    "C29_normalize_double_refuted",
    "C29_normalize_float_refuted",
    "C29_vec2_normalize",
    "C29_vec3_normalize"
   ],
   "note": "Exact over the reals; in doubles and floats within the error bounds of C81 while the squared length neither vanishes nor overflows. Outside that range the code returns the null vector (C29_normalize_double_refuted, C29_normalize_float_refuted)."
  },
  {
   "property": "C30",
   "status": "proved",
   "theorems": [
    "C30_vec2_rotate",
    "C30_vec3_rotate",
    "C30_undefined_axis"
   ],
   "note": ""
  },
  {
   "property": "C31",
   "status": "proved",
   "theorems": [
    "C31_cross_coord",
    "C31_cross_axis"
   ],
   "note": ""
  },
  {
   "property": "C32",
   "status": "partial",
   "theorems": [
    "C32_embedding_partial",
    "C32_constructor_refuted"
   ],
   "note": "toVec2 round trip for all planes; the Vec2(Vec3,Coord) constructor round trip fails for Y (refuted)."
  },
  {
   "property": "C33",
   "status": "proved",
   "theorems": [
    "C33_coords_plane_double",
    "C33_coords_space_double",
    "C33_coords_plane_float",
    "C33_coords_space_float",
    "C33_vec2_major_minor",
    "C33_vec3_major_minor"
   ],
   "note": ""
  },
  {
   "property": "C34",
   "status": "proved",
   "theorems": [
    "C34_intersection"
   ],
   "note": ""
  },
  {
   "property": "C35",
   "status": "partial",
   "theorems": [
    "C35_slerp_ends",
    "C35_slerp_acute_partial",
    "C35_slerp_flat",
    "C35_slerp_null",
    "C35_slerp_obtuse",
    "C35_slerp_obtuse_refuted",
    "C35_slerpMaxAngle_acute_partial",
    "C35_slerpMaxAngle_opposite_refuted"
   ],
   "note": "Ends, flat and null cases proved for all inputs; the turning angle proved for angles up to a right angle, characterised and refuted beyond."
  },
  {
   "property": "C36",
   "status": "proved",
   "theorems": [
    "C36_mat2_product",
    "C36_mat3_product",
    "C36_mat4_product",
    "C36_apply",
    "C36_scalar_operations",
    "C36_divisions",
    "C36_division_by_zero",
    "C36_mat2_self_assignment_refuted",
    "C36_mat3_self_assignment_refuted",
    "C36_transform_in_place_refuted"
   ],
   "note": "Findings: m*=m and in-place transforms overwrite operands while reading them (refuted); division by zero gives the null matrix where /= asserts."
  },
  {
   "property": "C37",
   "status": "partial",
   "theorems": [
    "C37_mat2_queries",
    "C37_mat3_queries",
    "C37_mat34_queries",
    "C37_setIdentity",
    "C37_optimize",
    "C37_default_tolerance",
    "C37_mat2_results",
    "C37_mat3_results",
    "C37_mat4_optimize",
    "C37_mat4_general",
    "C37_mat4_orthogonal_refuted",
    "C37_scalar_constructor",
    "C37_scalar_constructor_refuted",
    "C37_shortcut_error"
   ],
   "note": "Proved for Mat2 and Mat3 in full and for affine Mat4; Mat4 orthogonality ignores the fourth column (refuted) and the scalar constructors under-report (refuted)."
  },
  {
   "property": "C38",
   "status": "partial",
   "theorems": [
    "C38_mat2_history",
    "C38_mat3_history_partial",
    "C38_mat3_history_coord_partial",
    "C38_mat4_history",
    "C38_identity_bit_any",
    "C38_rotate_coord_refuted",
    "C38_transposed_refuted",
    "C38_product_refuted",
    "C38_mat4_scalar_refuted"
   ],
   "note": "Proved for all histories of rotation-building operations and, for the identity bit, for nearly all operations on arbitrary matrices; refuted for Mat3 coordinate rotations, transposes, products of unit-column matrices and Mat4(k)."
  },
  {
   "property": "C39",
   "status": "partial",
   "theorems": [
    "C39_determinant",
    "C39_determinant_laws",
    "C39_mat2_inverse",
    "C39_mat3_inverse",
    "C39_mat4_inverse_partial",
    "C39_mat4_inverse_refuted",
    "C39_adjoint"
   ],
   "note": "Proved for Mat2, Mat3 and for Mat4 whose orthonormal bits are truthful and affine; Mat4 refuted otherwise."
  },
  {
   "property": "C40",
   "status": "partial",
   "theorems": [
    "C40_mat3_invert",
    "C40_mat3_invert_error",
    "C40_mat4_invert_partial",
    "C40_mat4_uninitialized_refuted"
   ],
   "note": "Mat3 proved; Mat4 partial: the result of invert() on a non-orthonormal matrix of determinant one keeps uninitialized flags (refuted)."
  },
  {
   "property": "C41",
   "status": "proved",
   "theorems": [
    "C41_axis_angle",
    "C41_coordinate_axis",
    "C41_unit_quaternion",
    "C41_mat4",
    "C41_mat2",
    "C41_two_columns",
    "C41_two_columns_degenerate",
    "C41_null_axis_refuted"
   ],
   "note": "Finding: a null axis gives a scaled identity rather than a rotation (refuted)."
  },
  {
   "property": "C42",
   "status": "partial",
   "theorems": [
    "C42_product",
    "C42_inverse",
    "C42_matrix",
    "C42_rotated_coord",
    "C42_times_vector",
    "C42_times_vector_refuted"
   ],
   "note": "All laws proved; operator*(Quat,Vec3) does not rotate (refuted, characterised exactly)."
  },
  {
   "property": "C43",
   "status": "proved",
   "theorems": [
    "C43_round_trip"
   ],
   "note": ""
  },
  {
   "property": "C44",
   "status": "partial",
   "theorems": [
    "C44_between_partial",
    "C44_near_partial",
    "C44_opposite",
    "C44_opposite_refuted"
   ],
   "note": "Proved for directions whose cosine is within 0.99999 of neither end; near-equal directions within a bound; near-opposite refuted."
  },
  {
   "property": "C45",
   "status": "partial",
   "theorems": [
    "C45_slerp_arc",
    "C45_slerp_near_partial",
    "C45_slerp_outside",
    "C45_lerp",
    "C45_slerpNoInvert",
    "C45_squad_ends",
    "C45_slerpMaxAngle_partial",
    "C45_slerpMaxAngle_refuted"
   ],
   "note": "Exact below |dot|=0.95, within 1/30 above; slerpMaxAngle refuted unless it starts at the identity."
  },
  {
   "property": "C46",
   "status": "partial",
   "theorems": [
    "C46_division_partial",
    "C46_division_refuted"
   ],
   "note": "Refuted; an exact characterisation of when it holds for unit divisors is proved."
  },
  {
   "property": "C47",
   "status": "partial",
   "theorems": [
    "C47_axis_angle_partial",
    "C47_of_axis_angle",
    "C47_of_axis_zero",
    "C47_small",
    "C47_small_refuted",
    "C47_exp_log",
    "C47_exp_log_minus_one_refuted"
   ],
   "note": "Round trips proved except below the 1e-6 threshold (refuted) and at q=-1 (refuted)."
  },
  {
   "property": "C48",
   "status": "proved",
   "theorems": [
    "C48_apply",
    "C48_product",
    "C48_product_error",
    "C48_transform",
    "C48_transform_mat3",
    "C48_invert",
    "C48_invert_singular",
    "C48_constructors",
    "C48_coordinate_axis",
    "C48_two_columns",
    "C48_opposite",
    "C48_equality",
    "C48_transpose",
    "C48_slerp_translation_refuted",
    "C48_invert_tolerance_refuted"
   ],
   "note": "Over R, with identity bits set on exact identities and orthonormal bits on exact orthonormal parts. Findings: slerp drops the translation; a linear part flagged orthonormal only within the tolerance is inverted by its transpose."
  },
  {
   "property": "C49",
   "status": "partial",
   "theorems": [
    "C49_apply",
    "C49_translate",
    "C49_scalePre",
    "C49_copies",
    "C49_scale_partial",
    "C49_mat34_scale_refuted",
    "C49_mat4_scale_refuted",
    "C49_mat4_compose",
    "C49_rotate_mat34",
    "C49_rotate_mat34_quat",
    "C49_rotate_mat34_coord",
    "C49_rotate_mat4",
    "C49_rotate_mat4_quat",
    "C49_rotate_mat4_coord",
    "C49_small_angle",
    "C49_small_rotation_dropped",
    "C49_small_rotation_refuted"
   ],
   "note": "translate, translatePre, scalePre and large rotations proved. Refuted: scale multiplies columns instead of rows, so it is right only if the linear part commutes with the factors (C49_scale_partial); rotations with 4(1-cos a) <= 1/1000 are dropped."
  },
  {
   "property": "C50",
   "status": "partial",
   "theorems": [
    "C50_points_plane",
    "C50_points_space",
    "C50_add_plane",
    "C50_add_space",
    "C50_union_plane",
    "C50_union_space",
    "C50_intersection_plane_partial",
    "C50_intersection_space_partial",
    "C50_intersection_plane_refuted",
    "C50_intersection_space_refuted",
    "C50_makers_plane",
    "C50_makers_space",
    "C50_translation_plane",
    "C50_translation_space",
    "C50_size_plane",
    "C50_size_space",
    "C50_scale_plane",
    "C50_scale_space",
    "C50_point_at_plane",
    "C50_point_at_space",
    "C50_equality_plane",
    "C50_equality_space",
    "C50_points_plane_double",
    "C50_points_space_double",
    "C50_add_double",
    "C50_union_double",
    "C50_intersection_double_partial",
    "C50_tests_plane_double",
    "C50_tests_space_double",
    "C50_points_plane_float",
    "C50_points_space_float",
    "C50_add_float",
    "C50_union_float",
    "C50_intersection_float_partial",
    "C50_tests_plane_float",
    "C50_tests_space_float"
   ],
   "note": "Over R and for non-NaN doubles and floats. Intersection of disjoint boxes refuted."
  },
  {
   "property": "C51",
   "status": "proved",
   "theorems": [
    "C51_contains_point_plane",
    "C51_contains_point_space",
    "C51_contains_box_plane",
    "C51_contains_box_space",
    "C51_intersects_plane",
    "C51_intersects_space",
    "C51_contains_sphere"
   ],
   "note": ""
  },
  {
   "property": "C52",
   "status": "proved",
   "theorems": [
    "C52_ray_plane",
    "C52_ray_space",
    "C52_ray_bounded_plane",
    "C52_ray_bounded_space",
    "C52_segment_plane",
    "C52_segment_space"
   ],
   "note": "Over R. Rays: unit direction and coordinates below max/8, or any direction with parameters up to the largest number."
  },
  {
   "property": "C53",
   "status": "partial",
   "theorems": [
    "C53_hit_ray_plane_partial",
    "C53_hit_ray_space_partial",
    "C53_hit_segment_plane_partial",
    "C53_hit_segment_space_partial",
    "C53_missed_ray_refuted",
    "C53_invented_ray_refuted",
    "C53_missed_segment_refuted",
    "C53_invented_segment_refuted"
   ],
   "note": "What hits decides is characterized exactly; the claim itself is refuted both ways."
  },
  {
   "property": "C54",
   "status": "proved",
   "theorems": [
    "C54_conversions_plane",
    "C54_conversions_space",
    "C54_points_plane",
    "C54_points_space",
    "C54_add_plane",
    "C54_add_space",
    "C54_algebra_plane",
    "C54_algebra_space",
    "C54_queries_plane",
    "C54_queries_space",
    "C54_rest_plane",
    "C54_rest_space"
   ],
   "note": "Over R."
  },
  {
   "property": "C55",
   "status": "proved",
   "theorems": [
    "C55_contains_circle",
    "C55_includes_circle",
    "C55_intersects_circle",
    "C55_hit_circle",
    "C55_points_circle",
    "C55_operators_circle",
    "C55_equality_circle",
    "C55_makers_circle",
    "C55_contains_sphere",
    "C55_includes_sphere",
    "C55_intersects_sphere",
    "C55_hit_sphere",
    "C55_points_sphere",
    "C55_operators_sphere",
    "C55_equality_sphere",
    "C55_makers_sphere",
    "C55_circle_points_ieee",
    "C55_sphere_points_ieee"
   ],
   "note": "Line functions of Circle do not compile when instantiated and are left out."
  },
  {
   "property": "C56",
   "status": "partial",
   "theorems": [
    "C56_decides_partial",
    "C56_hit",
    "C56_agree",
    "C56_inside",
    "C56_null",
    "C56_on",
    "C56_refuted"
   ],
   "note": "Exact for segments that start strictly outside or on the sphere; a segment that starts inside and crosses the sphere is reported not to intersect (refuted)."
  },
  {
   "property": "C57",
   "status": "partial",
   "theorems": [
    "C57_project_along_ieee_partial",
    "C57_project_along_refuted_double",
    "C57_project_along_refuted_float",
    "C57_from_normal",
    "C57_from_point",
    "C57_from_tangents",
    "C57_from_points",
    "C57_degenerate",
    "C57_moved",
    "C57_flipped",
    "C57_project",
    "C57_contains",
    "C57_project_along_partial",
    "C57_project_along_refuted",
    "C57_equality",
    "C57_constants",
    "C57_local_m34",
    "C57_local_m4"
   ],
   "note": "Over R, all exact, except project(point, direction), which ignores the distance of the plane (refuted). In rounded numbers it is near the exact point of the parallel plane through the origin, and the same refutation holds in doubles and floats."
  },
  {
   "property": "C58",
   "status": "partial",
   "theorems": [
    "C58_hits_ray",
    "C58_intersects_ray_partial",
    "C58_hits_line",
    "C58_intersects_line_partial",
    "C58_flat_refuted",
    "C58_sphere",
    "C58_single_point_partial",
    "C58_single_point_refuted"
   ],
   "note": "Over R. Exact except for rays and segments in the plane, reported as not meeting it, and three planes whose determinant is below 1e-4 (both refuted)."
  },
  {
   "property": "C59",
   "status": "proved",
   "theorems": [
    "C59_set",
    "C59_set_m34",
    "C59_set_m4",
    "C59_mirrored_refuted",
    "C59_sphere_refuted"
   ],
   "note": "Over R, for matrices that keep orientation. Also: a mirroring matrix gives a frustum that contains nothing, and intersects(sphere) has false positives."
  },
  {
   "property": "C60",
   "status": "partial",
   "theorems": [
    "C60_line2",
    "C60_line3_partial",
    "C60_line3_refuted",
    "C60_ray2",
    "C60_ray3_partial",
    "C60_ray_refuted"
   ],
   "note": "Over R. Line2 and Ray2 exact; Line3 and Ray3 exact off the line, and wrong on it (refuted)."
  },
  {
   "property": "C61",
   "status": "partial",
   "theorems": [
    "C61_contains_partial",
    "C61_orientation",
    "C61_flat",
    "C61_flat_refuted"
   ],
   "note": "Over R. Exact for triangles that are not flat; flat ones contain the whole line (refuted, and characterized)."
  },
  {
   "property": "C62",
   "status": "partial",
   "theorems": [
    "C62_toRGB_total",
    "C62_toRGB",
    "C62_toHSV",
    "C62_round_rgb",
    "C62_round_rgba",
    "C62_round_hsv_any",
    "C62_round_hsv",
    "C62_grey",
    "C62_unit_hsv",
    "C62_unit_rgb",
    "C62_turns",
    "C62_toRGBA",
    "C62_rgba_toHSV",
    "C62_rgb_rgba",
    "C62_rgba_rgb",
    "C62_toRGB_double_partial",
    "C62_toRGB_double_refuted",
    "C62_toHSV_double_partial",
    "C62_toHSV_double_refuted",
    "C62_round_double",
    "C62_toRGB_error",
    "C62_toHSV_error",
    "C62_round_error",
    "C62_round_double_refuted",
    "C62_toRGB_float_partial",
    "C62_toRGB_float_refuted",
    "C62_toHSV_float_partial",
    "C62_toHSV_float_refuted",
    "C62_round_float",
    "C62_toRGB_error_float",
    "C62_toHSV_error_float",
    "C62_round_error_float",
    "C62_round_float_refuted"
   ],
   "note": "Proved over R. In doubles and floats: there and back always set and within 2^-48 (float 2^-19) per component, with exactness refuted; negative hues can give an unset color (refuted); hue 360 can be returned (refuted)."
  },
  {
   "property": "C63",
   "status": "partial",
   "theorems": [
    "C63_rgb",
    "C63_rgba",
    "C63_hsv",
    "C63_hsv_unit",
    "C63_hsv_far_refuted"
   ],
   "note": "Over R. Shortest way for hues at most a turn and a half apart; refuted beyond."
  },
  {
   "property": "C64",
   "status": "proved",
   "theorems": [
    "C64_mat2_transform",
    "C64_mat3_transform",
    "C64_other_transforms",
    "C64_out_of_range"
   ],
   "note": ""
  },
  {
   "property": "C65",
   "status": "proved",
   "theorems": [
    "C65_row_product",
    "C65_transposed"
   ],
   "note": ""
  },
  {
   "property": "C66",
   "status": "proved",
   "theorems": [
    "C66_polar"
   ],
   "note": ""
  },
  {
   "property": "C67",
   "status": "partial",
   "theorems": [
    "C67_vec2_clerp",
    "C67_vec2_clerp_rejects",
    "C67_vec2_clerp_turn_partial",
    "C67_clerpMaxAngle_length_refuted"
   ],
   "note": "clerp fully proved except the arc when angle(v)-angle(u) < -PI (defect C20); clerpMaxAngle length refuted."
  },
  {
   "property": "C69",
   "status": "proved",
   "theorems": [
    "C69_mat34_columns",
    "C69_mat4_columns",
    "C69_mat2_data",
    "C69_mat3_data",
    "C69_mat34_data",
    "C69_mat4_data",
    "C69_vec2_access",
    "C69_vec3_access",
    "C69_vec4_access",
    "C69_moved_mirrored",
    "C69_mirrored_refuted",
    "C69_pointwise",
    "C69_vec4_rest",
    "C69_constants",
    "C69_multiples",
    "C69_vector_equality",
    "C69_matrix_equality",
    "C69_next",
    "C69_next_right_handed"
   ],
   "note": "Finding: mirrored of a coordinate the vector lacks returns null, mirror leaves the vector alone."
  },
  {
   "property": "C70",
   "status": "proved",
   "theorems": [
    "C70_distance",
    "C70_metric_plane",
    "C70_metric_space",
    "C70_cross_of_points"
   ],
   "note": "Over R."
  },
  {
   "property": "C71",
   "status": "partial",
   "theorems": [
    "C71_random_unit2",
    "C71_random_unit2_loop",
    "C71_all_directions2_refuted",
    "C71_random_unit",
    "C71_random_unit_loop",
    "C71_all_directions_refuted"
   ],
   "note": "Unit length and termination proved; any direction refuted: components are never negative."
  },
  {
   "property": "C68",
   "status": "proved",
   "theorems": [
    "C68_frenet_frame",
    "C68_frenet_range"
   ],
   "note": "Over R."
  },
  {
   "property": "C72",
   "status": "proved",
   "theorems": [
    "C72_inner_plane",
    "C72_inner_space",
    "C72_outer_plane",
    "C72_outer_space"
   ],
   "note": "Over R."
  },
  {
   "property": "C73",
   "status": "proved",
   "theorems": [
    "C73_line2",
    "C73_line3",
    "C73_rays",
    "C73_equality"
   ],
   "note": "Over R."
  },
  {
   "property": "C74",
   "status": "proved",
   "theorems": [
    "C74_rgb",
    "C74_rgba",
    "C74_equality",
    "C74_constants",
    "C74_of",
    "C74_of_int",
    "C74_random",
    "C74_random_ends"
   ],
   "note": "Over R."
  },
  {
   "property": "C75",
   "status": "partial",
   "theorems": [
    "C75_tridiagonal",
    "C75_vectors",
    "C75_cyclic",
    "C75_gaussJordan_double_partial",
    "C75_closedSpline_double"
   ],
   "note": "False for GaussJordan on a matrix of NaNs only (C75_gaussJordan_double_partial says when); proved for everything else."
  },
  {
   "property": "C76",
   "status": "proved",
   "theorems": [
    "C76_naturalSpline_double",
    "C76_bezierSpline_double"
   ],
   "note": ""
  },
  {
   "property": "C77",
   "status": "partial",
   "theorems": [
    "C77_narrow_nearest",
    "C77_widen_exact",
    "C77_components",
    "C77_roundtrip",
    "C77_balls",
    "C77_boxes_narrow",
    "C77_widen",
    "C77_circle_refuted",
    "C77_matrices",
    "C77_matrix_roundtrip",
    "C77_rays",
    "C77_frustum"
   ],
   "note": "Flags of matrices and rays over R, the rest in floats and doubles. False for points inside circles (C77_circle_refuted)."
  },
  {
   "property": "C78",
   "status": "partial",
   "theorems": [
    "C78_vec2_add",
    "C78_vec2_sub",
    "C78_vec3_add",
    "C78_vec3_sub",
    "C78_vec4_add",
    "C78_vec4_sub",
    "C78_vec3_cross",
    "C78_vec2_mul_mat",
    "C78_vec3_mul_mat",
    "C78_mat2_transform",
    "C78_mat3_transform",
    "C78_mat34_transform_point",
    "C78_aabb2_set_point",
    "C78_aabb3_set_point",
    "C78_aabb2_set",
    "C78_aabb3_set",
    "C78_aabb2_add",
    "C78_aabb3_add",
    "C78_aabb2_plus",
    "C78_aabb2_minus",
    "C78_aabb3_plus",
    "C78_aabb3_minus",
    "C78_caabb2_set",
    "C78_caabb3_set",
    "C78_caabb2_plus",
    "C78_caabb2_minus",
    "C78_caabb3_plus",
    "C78_caabb3_minus",
    "C78_plane_set_normal",
    "C78_plane_set_plane",
    "C78_plane_set_point",
    "C78_plane_set_tangents",
    "C78_plane_set_points",
    "C78_mat2_set",
    "C78_mat3_set",
    "C78_mat4_set",
    "C78_mat2_scale",
    "C78_mat3_scale",
    "C78_mat3_rotation",
    "C78_mat2_mul_assign",
    "C78_mat3_mul_assign",
    "C78_mat3_rotate",
    "C78_mat2_mul_assign_self",
    "C78_mat3_mul_assign_self",
    "C78_mat2_transform_self",
    "C78_mat3_transform_self",
    "C78_mat34_make",
    "C78_mat34_set",
    "C78_mat34_rotation",
    "C78_mat34_translate",
    "C78_mat34_translatePre",
    "C78_mat34_scale",
    "C78_mat34_scalePre",
    "C78_mat34_transform_mat3",
    "C78_mat34_transform",
    "C78_mat34_transformPre_mat3",
    "C78_mat34_transformPre",
    "C78_bezier_set",
    "C78_hermite_set",
    "C78_bezier_split",
    "C78_quat_lerp",
    "C78_quat_slerp",
    "C78_quat_slerpNoInvert",
    "C78_rgb_interpolation",
    "C78_rgba_interpolation",
    "C78_hsv_interpolation",
    "C78_boxes_refuted",
    "C78_planes_refuted",
    "C78_columns_refuted",
    "C78_scale_refuted",
    "C78_products_refuted",
    "C78_transform_point_refuted",
    "C78_splines_refuted",
    "C78_mat2_multiply",
    "C78_mat3_multiply",
    "C78_mat34_multiply",
    "C78_mat4_multiply",
    "C78_mat2_multiply_self",
    "C78_mat3_multiply_self",
    "C78_mat34_multiply_self",
    "C78_mat4_multiply_self",
    "C78_mat4_transform",
    "C78_mat4_transformPre",
    "C78_mat4_transform_point",
    "C78_mat4_transform_vec4",
    "C78_mat4_transformVector",
    "C78_mat4_transformVector_vec4",
    "C78_mat2_transform_array",
    "C78_mat3_transform_array",
    "C78_mat34_transform_array",
    "C78_mat4_transform_array",
    "C78_mat4_transform_vec4_array",
    "C78_mat4_transformVector_array",
    "C78_mat4_transformVector_vec4_array",
    "C78_vec2_clerp",
    "C78_vec2_clerpMaxAngle",
    "C78_vec3_slerp",
    "C78_vec3_slerpMaxAngle",
    "C78_circle_set",
    "C78_sphere_set",
    "C78_circle_plus",
    "C78_circle_minus",
    "C78_sphere_plus",
    "C78_sphere_minus",
    "C78_rgb_add",
    "C78_rgb_sub",
    "C78_rgba_add",
    "C78_rgba_sub",
    "C78_mat34_of_quat",
    "C78_transform_mat4_refuted",
    "C78_corners_refuted",
    "C78_quat_translation_refuted"
   ],
   "note": "For any arithmetic. Each method is proved for the arguments for which it holds; false for the others (C78_*_refuted)."
  },
  {
   "property": "C79",
   "status": "partial",
   "theorems": [
    "C79_mat34_optimize",
    "C79_mat4_optimize",
    "C79_mat34_stale",
    "C79_mat4_stale",
    "C79_mat34_refuted",
    "C79_mat4_refuted"
   ],
   "note": "Holds after optimize(). Before it the flags are those of the old matrix, and products and inverses are wrong (C79_*_refuted)."
  },
  {
   "property": "C80",
   "status": "proved",
   "theorems": [
    "C80_formats",
    "C80_differs",
    "C80_boxes_meet_symmetric",
    "C80_transpose",
    "C80_equality",
    "C80_symmetric",
    "C80_distance_symmetric",
    "C80_opposite",
    "C80_balls_meet_symmetric",
    "C80_product_transposed"
   ],
   "note": "For IEEE-754 binary numbers of any format, doubles and floats included; differs, boxes and transpose for any arithmetic."
  },
  {
   "property": "C81",
   "status": "proved",
   "theorems": [
    "C81_normalized_length2",
    "C81_normalized_length3",
    "C81_gamma",
    "C81_dot_error",
    "C81_cross_error",
    "C81_length_error",
    "C81_distance_error",
    "C81_normalize2_error",
    "C81_normalize3_error",
    "C81_normalizeq_error"
   ],
   "note": "For IEEE-754 binary numbers of any format; the squares must stay in range."
  },
  {
   "property": "C82",
   "status": "proved",
   "theorems": [
    "C82_apply_error",
    "C82_product_error",
    "C82_quat_product_error",
    "C82_long_product"
   ],
   "note": "For IEEE-754 binary numbers of any format; the products must stay in range."
  },
  {
   "property": "C83",
   "status": "proved",
   "theorems": [
    "C83_bezier_point",
    "C83_bezier_tangent",
    "C83_hermite_point",
    "C83_hermite_tangent",
    "C83_bezier_ends",
    "C83_hermite_ends"
   ],
   "note": "For IEEE-754 binary numbers of any format."
  },
  {
   "property": "C84",
   "status": "proved",
   "theorems": [
    "C84_tridiagonal",
    "C84_vectors"
   ],
   "note": "For IEEE-754 binary numbers of any format; scalar and vector right-hand sides, result in place or not."
  },
  {
   "property": "C85",
   "status": "proved",
   "theorems": [
    "C85_natural_spline",
    "C85_clamped_spline"
   ],
   "note": "For IEEE-754 binary numbers of any format."
  },
  {
   "property": "C86",
   "status": "proved",
   "theorems": [
    "C86_natural_unique",
    "C86_clamped_unique",
    "C86_closed_unique"
   ],
   "note": "Over R. With two points the closed spline is not smooth (C15_closed_two_points_refuted)."
  },
  {
   "property": "C87",
   "status": "proved",
   "theorems": [
    "C87_sums",
    "C87_products",
    "C87_determinants",
    "C87_matrix_products",
    "C87_matrix_vector",
    "C87_plane_distance",
    "C87_triangle",
    "C87_circles",
    "C87_spheres",
    "C87_boxes2",
    "C87_boxes3"
   ],
   "note": "For IEEE-754 binary numbers of any format."
  },
  {
   "property": "C88",
   "status": "proved",
   "theorems": [
    "C88_parts",
    "C88_objects",
    "C88_frustum",
    "C88_symmetric",
    "C88_finite",
    "C88_nan",
    "C88_infinite",
    "C88_margin",
    "C88_float",
    "C88_float_nan"
   ],
   "note": "Text output (describe, StringMaker) is not modelled."
  },
  {
   "property": "C89",
   "status": "proved",
   "theorems": [
    "C89_tridiagonal",
    "C89_vectors",
    "C89_cyclic",
    "C89_gaussJordan",
    "C89_gaussJordan_vec2",
    "C89_gaussJordan_vec3",
    "C89_gaussJordan_double",
    "C89_naturalSpline",
    "C89_bezierSpline",
    "C89_closedSpline",
    "C89_naturalSpline_double",
    "C89_bezierSpline_double",
    "C89_closedSpline_double"
   ],
   "note": "For any arithmetic. GaussJordan returns in doubles unless all entries are NaN (C75). The blocks are the arrays of Model/Allocation.v."
  },
  {
   "property": "C90",
   "status": "partial",
   "theorems": [
    "C90_tridiagonal",
    "C90_vectors",
    "C90_cyclic_partial",
    "C90_gaussJordan_partial",
    "C90_naturalSpline_partial",
    "C90_bezierSpline_partial",
    "C90_closedSpline_partial",
    "C90_gaussJordan_refuted",
    "C90_cyclic_refuted",
    "C90_naturalSpline_refuted",
    "C90_bezierSpline_refuted",
    "C90_cyclic_result_refuted",
    "C90_closedSpline_result_refuted"
   ],
   "note": "Full for TriDiagonal::solve. Refuted for the others: blocks are leaked when a later allocation fails, and solveCyclic and closedBezierSpline may have overwritten their result."
  },
  {
   "property": "C91",
   "status": "partial",
   "theorems": [
    "C91_naturalSpline_partial",
    "C91_bezierSpline_partial",
    "C91_closedSpline_partial",
    "C91_naturalSpline_refuted",
    "C91_bezierSpline_refuted"
   ],
   "note": "The points may be in p3. Refuted: the points in p2, p3end in p3."
  },
  {
   "property": "C92",
   "status": "proved",
   "theorems": [
    "C92_boxes_complete2",
    "C92_boxes_sound2",
    "C92_boxes_complete3",
    "C92_boxes_sound3",
    "C92_distance",
    "C92_point_in_circle",
    "C92_circle_in_circle",
    "C92_circles_meet",
    "C92_point_in_sphere",
    "C92_sphere_in_sphere",
    "C92_spheres_meet",
    "C92_plane_side",
    "C92_plane_line",
    "C92_plane_sphere",
    "C92_triangle"
   ],
   "note": "For IEEE-754 binary numbers of any format, with explicit margins."
  },
  {
   "property": "C93",
   "status": "partial",
   "theorems": [
    "C93_box_hits",
    "C93_box_cuts",
    "C93_plane_line",
    "C93_plane_ray",
    "C93_sphere_line_partial",
    "C93_other_hits_partial",
    "C93_sphere_line_refuted",
    "C93_sphere_line_float_refuted"
   ],
   "note": "Full for boxes, for planes with finite distances and slopes, for spheres and segments with coordinates up to 2^253 (floats 2^29). Refuted beyond: an overflow is reported as a hit with parameter NaN."
  },
  {
   "property": "C94",
   "status": "partial",
   "theorems": [
    "C94_constants_double",
    "C94_thirds_double_refuted",
    "C94_constants_float",
    "C94_thirds_float",
    "C94_pi",
    "C94_to_radians",
    "C94_to_degrees",
    "C94_degrees_and_back",
    "C94_radians_and_back",
    "C94_radians_monotone",
    "C94_degrees_monotone",
    "C94_radians_odd",
    "C94_degrees_odd",
    "C94_angles_double",
    "C94_angles_float",
    "C94_degrees_back_refuted",
    "C94_clamped_calls"
   ],
   "note": "Full except that the constants for pi/3 and pi/6 are not the nearest doubles (refuted, within one unit in the last place), and that whole degrees need not come back exactly (refuted)."
  },
  {
   "property": "C95",
   "status": "partial",
   "theorems": [
    "C95_counters",
    "C95_rand_error",
    "C95_rand_sign",
    "C95_rand_monotone",
    "C95_rand_one",
    "C95_colors",
    "C95_hsv_double",
    "C95_hsv_float",
    "C95_rand_float",
    "C95_range_double_refuted",
    "C95_range_float_refuted",
    "C95_between_error",
    "C95_between_low",
    "C95_amplitude_range",
    "C95_amplitude_error",
    "C95_directions2",
    "C95_directions3"
   ],
   "note": "Full except for the upper ends: rand(f) and randBetween(a, b) can exceed f and b by a rounding (refuted in doubles and floats)."
  },
  {
   "property": "C96",
   "status": "proved",
   "theorems": [
    "C96_trig",
    "C96_precise",
    "C96_rotate2",
    "C96_angle",
    "C96_rotate3",
    "C96_mat2",
    "C96_mat3_coord",
    "C96_mat4_coord",
    "C96_mat3_axis",
    "C96_mat4_axis",
    "C96_mat3_orthonormal",
    "C96_quaternion",
    "C96_mat3_axis_flags",
    "C96_mat3_coord_flags",
    "C96_mat4_axis_flags",
    "C96_mat4_coord_flags",
    "C96_mat2_flags",
    "C96_rotated_columns"
   ],
   "note": "For any libm whose sin and cos are off by at most k roundings of 1; correctly rounded functions have k = 1."
  },
  {
   "property": "C97",
   "status": "partial",
   "theorems": [
    "C97_mat2_angle",
    "C97_mat2_angle_of_rotation",
    "C97_mat2_rotation_of_angle",
    "C97_mat2_slerp_partial",
    "C97_mat2_slerpMaxAngle_partial",
    "C97_mat2_long_way_refuted",
    "C97_mat3_slerp",
    "C97_mat3_slerpMaxAngle_partial",
    "C97_mat3_slerpMaxAngle_refuted",
    "C97_mat2_orthonormalise",
    "C97_mat3_orthonormalise",
    "C97_mat4_orthonormalise",
    "C97_mat34_slerp_partial",
    "C97_mat34_slerpMaxAngle_partial"
   ],
   "note": "Mat3::slerp is proved in full: exact on the arc, within 1/15 when the ends are close. Mat2::slerp takes the long way when the angles differ by less than -PI (refuted). slerpMaxAngle of Mat3 forgets the start, and from the identity it can miss a target that is within the limit (refuted). Mat34 loses the translation."
  },
  {
   "property": "C98",
   "status": "partial",
   "theorems": [
    "C98_final",
    "C98_initialised",
    "C98_once",
    "C98_before",
    "C98_always",
    "C98_zero_matrices",
    "C98_safe_functions",
    "C98_functions_after",
    "C98_identity_early_refuted",
    "C98_easing_early_refuted"
   ],
   "note": "Proved for every order and every conforming compiler. Refuted for functions that read OneX, OneW or multiples of PI when they are called from the initialiser of a user's global that runs first: setIdentity, clerp, the cosine easing and the default translation of Mat4."
  },
  {
   "property": "C99",
   "status": "partial",
   "theorems": [
    "C99_value",
    "C99_not_finite",
    "C99_digits",
    "C99_enough",
    "C99_objects",
    "C99_corners",
    "C99_exact",
    "C99_failed",
    "C99_float_up",
    "C99_matrices_partial",
    "C99_matrices_refuted",
    "C99_describe"
   ],
   "note": "Proved for the 18 types printed with max_digits10 digits, for any format with 2^p < 10^16. Refuted for Mat2, Mat3, Mat34, Mat4 and Frustum, printed with 4 decimals: a failed match can show the same text twice; what holds is agreement to four decimals."
  },
  {
   "property": "C100",
   "status": "partial",
   "theorems": [
    "C100_determinant",
    "C100_mat2",
    "C100_mat3",
    "C100_mat4",
    "C100_mat4_flagged",
    "C100_residual",
    "C100_mat2_singular",
    "C100_mat3_singular_partial",
    "C100_mat4_singular_partial",
    "C100_mat3_singular_refuted"
   ],
   "note": "Error bounds proved for every matrix whose determinant exceeds the rounding errors. Recognition of singular matrices proved for Mat2 and for whole numbers, refuted for Mat3 in general."
  },
  {
   "property": "C101",
   "status": "partial",
   "theorems": [
    "C101_split",
    "C101_split_ends",
    "C101_walk_point",
    "C101_walk_tangent",
    "C101_vector_length",
    "C101_length",
    "C101_walk_end_refuted"
   ],
   "note": "All error bounds proved. That a walk ends exactly at the last control point is refuted."
  },
  {
   "property": "C102",
   "status": "partial",
   "theorems": [
    "C102_fabsf_float",
    "C102_fabsf_double",
    "C102_gauss_jordan",
    "C102_vec3",
    "C102_vec2",
    "C102_closed_spline",
    "C102_small_refuted"
   ],
   "note": "All error bounds proved for dominant diagonals. That every regular system is solved is refuted in doubles."
  },
  {
   "property": "C103",
   "status": "proved",
   "theorems": [
    "C103_matrix",
    "C103_quaternion",
    "C103_rotated",
    "C103_normalize",
    "C103_product",
    "C103_inverse",
    "C103_lerp",
    "C103_slerp",
    "C103_orthonormalise",
    "C103_matrix_slerp",
    "C103_libraries"
   ],
   "note": "All bounds proved, with a case in doubles and a proof that libraries with the assumed accuracy exist. slerpNoInvert, squad, log and exp are not covered here; C47 and related properties treat them in real numbers."
  },
  {
   "property": "C104",
   "status": "proved",
   "theorems": [
    "C104_from_point",
    "C104_from_tangents",
    "C104_from_points",
    "C104_distance",
    "C104_project",
    "C104_frustum",
    "C104_region",
    "C104_narrow_double",
    "C104_narrow_float"
   ],
   "note": "All bounds proved for any binary format, with a cube in doubles as a case. The narrowing of distances to float is shown for doubles and floats."
  },
  {
   "property": "C105",
   "status": "proved",
   "theorems": [
    "C105_lines",
    "C105_plane_line",
    "C105_plane_line_radius",
    "C105_plane_ray",
    "C105_three_planes",
    "C105_ray2_distance",
    "C105_line2_distance",
    "C105_ray3_distance",
    "C105_line3_distance",
    "C105_literal_double",
    "C105_literal_float"
   ],
   "note": "All bounds proved for any binary format, with cases in doubles. The literal 1e-4 is shown to be close in doubles and floats."
  },
  {
   "property": "C106",
   "status": "proved",
   "theorems": [
    "C106_box2_cut_ray",
    "C106_box2_hit_ray",
    "C106_box2_cut_line",
    "C106_box2_hit_line",
    "C106_box3_cut_ray",
    "C106_box3_hit_ray",
    "C106_box3_cut_line",
    "C106_box3_hit_line",
    "C106_sphere_miss",
    "C106_sphere_hit",
    "C106_limit"
   ],
   "note": "All bounds proved for any binary format, with cases in doubles. The hits functions may also answer true for a ray that misses the box, as noted for the exact model; the theorem says what the value means when the ray does enter."
  },
  {
   "property": "C107",
   "status": "partial",
   "theorems": [
    "C107_measures2",
    "C107_measures3",
    "C107_area",
    "C107_volume",
    "C107_center_inside2",
    "C107_moved_inside2",
    "C107_scaled2",
    "C107_outer2",
    "C107_inner2",
    "C107_center_inside3",
    "C107_moved_inside3",
    "C107_scaled3",
    "C107_outer3",
    "C107_inner3",
    "C107_centered2",
    "C107_cornered2",
    "C107_added2",
    "C107_centered_outer2",
    "C107_centered_inner2",
    "C107_centered_point2",
    "C107_centered3",
    "C107_cornered3",
    "C107_added3",
    "C107_centered_outer3",
    "C107_centered_inner3",
    "C107_centered_point3",
    "C107_centered_area",
    "C107_centered_volume",
    "C107_outer_refuted",
    "C107_centered_refuted",
    "C107_added_refuted",
    "C107_point_refuted"
   ],
   "note": "All bounds and the exact parts are proved for any binary format. Missing because false: C107_outer_refuted, C107_centered_refuted, C107_added_refuted and C107_point_refuted show in doubles that containment without slack fails."
  },
  {
   "property": "C108",
   "status": "partial",
   "theorems": [
    "C108_apply",
    "C108_mul",
    "C108_transform",
    "C108_transformPre",
    "C108_pre_m3",
    "C108_post_m3",
    "C108_translate",
    "C108_translatePre",
    "C108_scalePre",
    "C108_identity_invert",
    "C108_rigid_invert",
    "C108_invert",
    "C108_round_trip",
    "C108_chain",
    "C108_compose_refuted",
    "C108_undo_refuted"
   ],
   "note": "All bounds are proved for any binary format. The transforms are assumed to have their identity flag only on the identity; optimize sets it within a tolerance. Missing because false: C108_compose_refuted and C108_undo_refuted show in doubles that composition and inversion are not exact."
  },
  {
   "property": "C109",
   "status": "partial",
   "theorems": [
    "C109_double",
    "C109_float",
    "C109_fmodCentered",
    "C109_clerp",
    "C109_response",
    "C109_response_close",
    "C109_response_rejects",
    "C109_centered_half_refuted",
    "C109_centered_inside_refuted",
    "C109_long_way_double_refuted"
   ],
   "note": "The order facts of the curves with pow and cos assume those two functions monotone and right at the ends (fair_curves), which C109_curves_case shows can hold. Missing because false: C109_centered_half_refuted, C109_centered_inside_refuted and C109_long_way_double_refuted."
  },
  {
   "property": "C110",
   "status": "partial",
   "theorems": [
    "C110_double",
    "C110_float",
    "C110_axis_angle",
    "C110_axis_back",
    "C110_axis_rejects",
    "C110_log",
    "C110_exp",
    "C110_exp_zero",
    "C110_log_exp",
    "C110_slerpNoInvert",
    "C110_between",
    "C110_between_turns",
    "C110_small_lost_refuted",
    "C110_opposite_refuted"
   ],
   "note": "Bounds grow as the axis becomes badly determined: 45 d over the length of the vector part. log and exp(log) for scalar parts up to 0.95, slerpNoInvert for products from -0.95. The bound between vectors is about 131000 roundings, and C110_between_turns needs 30 bits. Missing because false: C110_small_lost_refuted and C110_opposite_refuted."
  },
  {
   "property": "C111",
   "status": "partial",
   "theorems": [
    "C111_lerp",
    "C111_eased",
    "C111_lerp2",
    "C111_lerp3",
    "C111_pointAt2",
    "C111_pointAt3",
    "C111_rgb",
    "C111_rgba",
    "C111_unit",
    "C111_hsv",
    "C111_bytes",
    "C111_arithmetic",
    "C111_quotient",
    "C111_lerp_end_refuted",
    "C111_pointAt_end_refuted",
    "C111_hue_refuted"
   ],
   "note": "Missing because false: lerp and pointAt at ratio 1 (C111_lerp_end_refuted, C111_pointAt_end_refuted) and a hue below 360 (C111_hue_refuted)."
  },
  {
   "property": "C112",
   "status": "proved",
   "theorems": [
    "C112_lerp2",
    "C112_lerp3",
    "C112_easing",
    "C112_plain",
    "C112_range",
    "C112_lerp",
    "C112_exact",
    "C112_double",
    "C112_float",
    "C112_libraries"
   ],
   "note": ""
  },
  {
   "property": "C113",
   "status": "partial",
   "theorems": [
    "C113_back",
    "C113_matrix_angle",
    "C113_clerp",
    "C113_slerp",
    "C113_limit_refuted",
    "C113_formats",
    "C113_libraries"
   ],
   "note": "Vec2::clerpMaxAngle between equal vectors gives NaN (C113_limit_refuted, any format); everything else in the statement is proved."
  },
  {
   "property": "C114",
   "status": "partial",
   "theorems": [
    "C114_modes",
    "C114_lerp",
    "C114_eased",
    "C114_double",
    "C114_float",
    "C114_beyond_refuted"
   ],
   "note": "Proved for doubles with every int difference and for floats with differences up to 2^24. Beyond that floats overshoot or are undefined (C114_beyond_refuted)."
  }
 ]
}