{
 "claims": [
  {
   "property": "C01",
   "status": "proved",
   "theorems": [
    "C01_contains_value",
    "C01_contains_value_undefined"
   ],
   "note": "For every dense total order and every valid interval; undefined operands raise Undefined."
  },
  {
   "property": "C02",
   "status": "proved",
   "theorems": [
    "C02_intersects",
    "C02_intersects_sym",
    "C02_intersects_undefined"
   ],
   "note": "Exact for valid intervals, with symmetry; undefined operands raise Undefined."
  },
  {
   "property": "C03",
   "status": "proved",
   "theorems": [
    "C03_contains_interval",
    "C03_contains_interval_undefined"
   ],
   "note": "Exact for valid intervals; undefined operands raise Undefined."
  },
  {
   "property": "C04",
   "status": "proved",
   "theorems": [
    "C04_intersection",
    "C04_intersection_undefined"
   ],
   "note": "Exact for valid intervals; undefined operands raise Undefined."
  },
  {
   "property": "C05",
   "status": "proved",
   "theorems": [
    "C05_union",
    "C05_union_undefined"
   ],
   "note": "Exact for valid intervals; undefined operands raise Undefined."
  },
  {
   "property": "C06",
   "status": "proved",
   "theorems": [
    "C06_clip",
    "C06_clip_order",
    "C06_clip_undefined"
   ],
   "note": "Coverage, validity, order of the pieces, and error branches."
  },
  {
   "property": "C07",
   "status": "proved",
   "theorems": [
    "C07_merge_cover",
    "C07_merge_undefined",
    "C07_sort"
   ],
   "note": "For every function meeting the std::sort contract; also the order produced by Sort."
  },
  {
   "property": "C08",
   "status": "partial",
   "theorems": [
    "C08_merge_separated_partial",
    "C08_merge_canonical_partial",
    "C08_merge_twice",
    "C08_merge_separated_refuted",
    "C08_merge_order_refuted"
   ],
   "note": "False in general (C08_merge_separated_refuted, C08_merge_order_refuted: {[0,1[, ]1,2], [1,1]}). Proved when no two inputs start at the same value with different inclusion; merging twice always gives separated intervals."
  },
  {
   "property": "C09",
   "status": "partial",
   "theorems": [
    "C09_gaps_span_partial",
    "C09_gaps_nospan_partial",
    "C09_gaps_refuted",
    "C09_gaps_throws_refuted"
   ],
   "note": "False in general (C09_gaps_refuted, C09_gaps_throws_refuted). Proved: the exact set returned, i.e. the uncovered part of the span minus isolated included end points, when no two inputs start at the same value with different inclusion."
  },
  {
   "property": "C10",
   "status": "proved",
   "theorems": [
    "C10_logical_or"
   ],
   "note": "For every function meeting the std::sort contract."
  },
  {
   "property": "C11",
   "status": "partial",
   "theorems": [
    "C11_logical_and_partial",
    "C11_logical_and_exact_partial",
    "C11_logical_and_refuted"
   ],
   "note": "False in general (C11_logical_and_refuted). Proved: never throws, the exact set returned for all inputs, and equality with the intersection when no input interval is a single point."
  },
  {
   "property": "C12",
   "status": "partial",
   "theorems": [
    "C12_mutators_refuted",
    "C12_mutators_partial",
    "C12_constructor"
   ],
   "note": "False (C12_mutators_refuted). Proved: the constructor accepts exactly valid intervals and the bound setters keep the bounds ordered."
  },
  {
   "property": "C13",
   "status": "proved",
   "theorems": [
    "C13_with_step_positive",
    "C13_with_step_negative",
    "C13_with_step_errors"
   ],
   "note": "Over exact real arithmetic; the grid is characterised as a sorted list with an exact membership condition."
  },
  {
   "property": "C14",
   "status": "proved",
   "theorems": [
    "C14_with_size_values",
    "C14_with_size_inside",
    "C14_with_size_errors"
   ],
   "note": "Over exact real arithmetic; strictly increasing for non degenerate intervals."
  },
  {
   "property": "C15",
   "status": "proved",
   "theorems": [
    "C15_equality",
    "C15_equality_undefined"
   ],
   "note": "Exact for valid intervals; undefined ones are never equal."
  },
  {
   "property": "C16",
   "status": "proved",
   "theorems": [
    "C16_reduction",
    "C16_other_ranges_rejected"
   ],
   "note": "Over the reals, for the four range functions; the loop terminates, lands in the range and preserves the angle modulo a turn; all other ranges and undefined arguments raise Undefined."
  },
  {
   "property": "C17",
   "status": "partial",
   "theorems": [
    "C17_terminates_refuted",
    "C17_integer_range_partial",
    "C17_any_range_partial",
    "C17_double"
   ],
   "note": "Refuted in binary64 (C17_terminates_refuted: 2^70 reduced to [0, 360[ never ends). C17_double, over SpecFloat binary64 with no assumption on the rounding: the loops end and land in the range when its width is a double and value and bounds are within 2^52 widths of zero. The two older theorems are for any rounding meeting a stated contract."
  },
  {
   "property": "C18",
   "status": "proved",
   "theorems": [
    "C18_equal_iff_whole_turns",
    "C18_equivalence",
    "C18_total",
    "C18_undefined"
   ],
   "note": "Over the reals, all five units. Undefined operands: false for an undefined unit, an exception for an undefined value with a defined unit."
  },
  {
   "property": "C19",
   "status": "proved",
   "theorems": [
    "C19_conversion",
    "C19_chain",
    "C19_sum_and_difference",
    "C19_scaling",
    "C19_undefined"
   ],
   "note": "Over the reals, every chain of units; errors for undefined operands and division by zero."
  },
  {
   "property": "C20",
   "status": "proved",
   "theorems": [
    "C20_between_3d",
    "C20_between_2d",
    "C20_errors"
   ],
   "note": "2D and 3D, for vectors of squared norm at least epsilon; below epsilon RuntimeError. Scaling is stated for scaled vectors still above epsilon."
  },
  {
   "property": "C21",
   "status": "proved",
   "theorems": [
    "C21_is_near",
    "C21_total",
    "C21_symmetric_and_periodic",
    "C21_undefined"
   ],
   "note": "Over the reals, all units, negative tolerances count by magnitude; undefined operands raise Undefined."
  },
  {
   "property": "C22",
   "status": "proved",
   "theorems": [
    "C22_nodes",
    "C22_clamped",
    "C22_cell",
    "C22_repeated_abscissae",
    "C22_vector"
   ],
   "note": "Nodes, clamping, chord in each cell (also with repeated abscissae) and vector evaluation, over the reals and arrays of any length; binary search modelled step by step with out-of-range reads as UB."
  },
  {
   "property": "C23",
   "status": "proved",
   "theorems": [
    "C23_derivative",
    "C23_slopes"
   ],
   "note": "Derivative as a limit of the evaluated function at every query that is not a node, for non-decreasing abscissae; values at nodes given too."
  },
  {
   "property": "C24",
   "status": "proved",
   "theorems": [
    "C24_previous_sample",
    "C24_derivative"
   ],
   "note": "Last node with x_i <= q, first ordinate before all nodes; repeated abscissae covered."
  },
  {
   "property": "C25",
   "status": "partial",
   "theorems": [
    "C25_reads_in_bounds_refuted",
    "C25_barycentric_partial",
    "C25_others_partial",
    "C25_evaluation_in_bounds"
   ],
   "note": "Refuted for BarycentricRational: more than 3 abscissae and fewer ordinates are read out of bounds before the size check. Proved for Linear, ZeroOrder and both CubicSpline constructors, with the exact acceptance conditions; evaluation after construction never reads out of bounds. Boost's spline construction itself is not modelled."
  },
  {
   "property": "C26",
   "status": "partial",
   "theorems": [
    "C26_constructor",
    "C26_clamped",
    "C26_nodes_refuted",
    "C26_nodes_partial",
    "C26_nodes_lower_triangle_partial",
    "C26_cell"
   ],
   "note": "Clamping, cells (exponential series of the blended logarithms, symmetric positive definite result) and constructor acceptance proved for any eigen-solver meeting its contract. Exactness at nodes is refuted for non-symmetric matrices (accepted; only the lower triangle is used) and proved for symmetric ones."
  },
  {
   "property": "C27",
   "status": "proved",
   "theorems": [
    "C27_product",
    "C27_assoc",
    "C27_unit",
    "C27_norm",
    "C27_conj",
    "C27_inverse"
   ],
   "note": "Product is associative, unital, multiplicative for the norm; crossMultiply is Hamilton's product with swapped operands; inverse exists iff the squared norm is at least the tolerance."
  },
  {
   "property": "C28",
   "status": "proved",
   "theorems": [
    "C28_isometry",
    "C28_homomorphism",
    "C28_inverse",
    "C28_negated",
    "C28_errors",
    "C28_tolerated"
   ],
   "note": "Isometry, orientation, homomorphism, inverse, sign; non-unit and undefined operands rejected."
  },
  {
   "property": "C29",
   "status": "proved",
   "theorems": [
    "C29_matrix",
    "C29_from_matrix"
   ],
   "note": "Both conversions for every unit quaternion and every proper rotation matrix (each proper rotation is shown to come from a unit quaternion)."
  },
  {
   "property": "C30",
   "status": "partial",
   "theorems": [
    "C30_accepted_iff",
    "C30_lengths_refuted",
    "C30_orientation_refuted"
   ],
   "note": "The accepted matrices are characterised exactly; the zero matrix and reflections are accepted, so the property as stated is refuted."
  },
  {
   "property": "C31",
   "status": "proved",
   "theorems": [
    "C31_elementary_groups"
   ],
   "note": "One-parameter groups about each axis, by Rodrigues' formula."
  },
  {
   "property": "C32",
   "status": "partial",
   "theorems": [
    "C32_quaternion",
    "C32_matrix",
    "C32_zyx_partial",
    "C32_refuted"
   ],
   "note": "Quaternion side proved for the three sequences; the matrix is always that of the sequence z, y, x: agreement proved for ZYX, refuted for XYZ and ZXY."
  },
  {
   "property": "C33",
   "status": "partial",
   "theorems": [
    "C33_matrix_partial",
    "C33_quaternion_partial",
    "C33_zyx_partial",
    "C33_label_refuted",
    "C33_gimbal_refuted"
   ],
   "note": "Extraction right away from gimbal lock once relabelled with the requested sequence; refuted for the label and at gimbal lock."
  },
  {
   "property": "C34",
   "status": "proved",
   "theorems": [
    "C34_construct",
    "C34_conversions",
    "C34_from_quaternion"
   ],
   "note": "Construction, conversions to quaternion and matrix, and from quaternion."
  },
  {
   "property": "C35",
   "status": "partial",
   "theorems": [
    "C35_partial",
    "C35_half_turn",
    "C35_refuted",
    "C35_small_angle_refuted"
   ],
   "note": "Proved for angles in [eps, pi[ and for the identity; refuted for half turns (error) and angles below eps (wrong axis)."
  },
  {
   "property": "C36",
   "status": "partial",
   "theorems": [
    "C36_same",
    "C36_range_partial",
    "C36_range_refuted",
    "C36_quaternion",
    "C36_quaternion_any"
   ],
   "note": "Rectification keeps the rotation always; range proved for angles within one turn, refuted beyond."
  },
  {
   "property": "C37",
   "status": "proved",
   "theorems": [
    "C37_equal_iff",
    "C37_equivalence"
   ],
   "note": "Equality iff same rotation, equivalence relation."
  },
  {
   "property": "C38",
   "status": "proved",
   "theorems": [
    "C38_value",
    "C38_is_angle",
    "C38_triangle",
    "C38_errors"
   ],
   "note": "Value, range, symmetry, zero, bi-invariance, meaning as an angle, triangle inequality, errors."
  },
  {
   "property": "C39",
   "status": "partial",
   "theorems": [
    "C39_ratio",
    "C39_lerp",
    "C39_nlerp_partial",
    "C39_nlerp_refuted",
    "C39_slerp_unit",
    "C39_slerp_start",
    "C39_rate",
    "C39_end_partial",
    "C39_slerp_end_refuted"
   ],
   "note": "LERP exact; SLERP always unit, starts at p, constant rate beyond the tolerance; NLERP of antipodal quaternions and SLERP at ratio 1 within the tolerance are refuted."
  },
  {
   "property": "C40",
   "status": "partial",
   "theorems": [
    "C40_polar_form",
    "C40_exp_log_partial",
    "C40_pow_partial",
    "C40_one_partial",
    "C40_add_partial",
    "C40_refuted",
    "C40_log_zero"
   ],
   "note": "Proved for quaternions whose vector part and angle exceed the tolerance; refuted for real quaternions (exp forgets the modulus)."
  },
  {
   "property": "C41",
   "status": "proved",
   "theorems": [
    "C41_rotates",
    "C41_error_iff",
    "C41_zero"
   ],
   "note": "Maps u to v, axis orthogonal to both, least angle among all rotations doing so; exact error condition."
  },
  {
   "property": "C42",
   "status": "proved",
   "theorems": [
    "C42_rotation",
    "C42_errors",
    "C42_undefined"
   ],
   "note": "The unique rotation aligning the pairs; errors for zero, parallel and undefined vectors."
  },
  {
   "property": "C43",
   "status": "partial",
   "theorems": [
    "C43_action_3d_partial",
    "C43_monoid_3d",
    "C43_undefined_3d",
    "C43_matrix_refuted",
    "C43_action_2d",
    "C43_monoid_2d",
    "C43_undefined_2d"
   ],
   "note": "2D in full. 3D for all transformations whose matrix has last row 0 0 0 1; refuted for a matrix close to the identity with another last row, which the constructor accepts."
  },
  {
   "property": "C44",
   "status": "partial",
   "theorems": [
    "C44_inverse_3d",
    "C44_exists_3d_partial",
    "C44_composition_3d",
    "C44_matrix_refuted",
    "C44_inverse_2d"
   ],
   "note": "2D in full. 3D whenever an inverse exists, and existence for proper rotations; refuted for Rotation of an accepted matrix that is not a rotation (the zero matrix)."
  },
  {
   "property": "C45",
   "status": "partial",
   "theorems": [
    "C45_rigid_3d_partial",
    "C45_matrix_refuted",
    "C45_undefined_3d",
    "C45_sound_2d",
    "C45_rigid_2d_partial",
    "C45_composed_2d_refuted"
   ],
   "note": "Refuted in 3D (zero rotation matrix reported rigid) and 2D (compositions of rigid transformations reported not rigid). Proved for proper rotations; in 2D isRigid is characterised exactly."
  },
  {
   "property": "C46",
   "status": "partial",
   "theorems": [
    "C46_type_3d_partial",
    "C46_table",
    "C46_matrix_refuted",
    "C46_type_2d"
   ],
   "note": "2D in full. 3D for everything except matrices close to the identity passed to the constructor, which are refuted."
  },
  {
   "property": "C47",
   "status": "proved",
   "theorems": [
    "C47_around_3d",
    "C47_around_2d"
   ],
   "note": "Over the real numbers, for 2D and 3D."
  },
  {
   "property": "C48",
   "status": "proved",
   "theorems": [
    "C48_line",
    "C48_ray",
    "C48_segment"
   ],
   "note": "Planes, lines, rays and segments with any direction and normal vectors."
  },
  {
   "property": "C49",
   "status": "proved",
   "theorems": [
    "C49_point",
    "C49_pointset",
    "C49_line",
    "C49_ray",
    "C49_segment",
    "C49_segment_set",
    "C49_errors"
   ],
   "note": "Lines and rays with a unit direction, as the constructors make."
  },
  {
   "property": "C50",
   "status": "proved",
   "theorems": [
    "C50_line",
    "C50_ray",
    "C50_segment",
    "C50_plane",
    "C50_construct",
    "C50_construct_zero",
    "C50_through",
    "C50_errors"
   ],
   "note": "Over the real numbers, with the comparisons against 0.0 that the code makes."
  },
  {
   "property": "C51",
   "status": "partial",
   "theorems": [
    "C51_construct",
    "C51_construct_undefined",
    "C51_equal",
    "C51_closest",
    "C51_closest_errors",
    "C51_near_answers",
    "C51_near_sound",
    "C51_near_complete_partial",
    "C51_near_refuted"
   ],
   "note": "isNear is sound; complete only for sets whose points are more than twice the tolerance apart; otherwise the answer depends on the iteration order of the hash set (refuted)."
  },
  {
   "property": "C52",
   "status": "partial",
   "theorems": [
    "C52_contains",
    "C52_sets",
    "C52_errors",
    "C52_intersects",
    "C52_intersects_segment_partial",
    "C52_line",
    "C52_ray",
    "C52_segment",
    "C52_equal",
    "C52_negative_radius_refuted",
    "C52_rigid",
    "C52_not_rigid"
   ],
   "note": "GTE queries are assumptions (contract sphere_queries, satisfiable: ref_sphere). Segments inside the ball are left to GTE. Negative radii refuted."
  },
  {
   "property": "C53",
   "status": "partial",
   "theorems": [
    "C53_axes",
    "C53_matrix",
    "C53_contains",
    "C53_contains_partial",
    "C53_contains_refuted",
    "C53_sets",
    "C53_negative"
   ],
   "note": "Proved: axes, matrix, sets, negative semi-axes. contains uses the inverse orientation (C53_contains states what it decides); agreement with the surface proved when that does not matter (C53_contains_partial), false otherwise (C53_contains_refuted)."
  },
  {
   "property": "C54",
   "status": "partial",
   "theorems": [
    "C54_contains_partial",
    "C54_apex",
    "C54_near_apex",
    "C54_near_apex_refuted",
    "C54_obtuse_refuted",
    "C54_further",
    "C54_segment",
    "C54_sets",
    "C54_ray",
    "C54_errors"
   ],
   "note": "Containment is exact for angles up to 90 degrees and points clear of the apex, closed along rays and segments; refuted for points within sqrt(eps) of the apex (error) and for obtuse cones."
  },
  {
   "property": "C55",
   "status": "partial",
   "theorems": [
    "C55_decides",
    "C55_same_points_partial",
    "C55_opposite_refuted",
    "C55_complete"
   ],
   "note": "Proved when the axes are not opposite, with the exact criterion and the converse; refuted for opposite axes with complementary angles."
  },
  {
   "property": "C56",
   "status": "partial",
   "theorems": [
    "C56_front_partial",
    "C56_behind_partial",
    "C56_behind_refuted",
    "C56_axis_witness",
    "C56_axis_refuted",
    "C56_apex"
   ],
   "note": "Proved in front of the apex (on the axis or further than eps from it) and at 90 degrees plus the cone angle or more behind it; refuted between and next to the axis."
  },
  {
   "property": "C57",
   "status": "proved",
   "theorems": [
    "C57_sphere"
   ],
   "note": "Exact for angles up to 90 degrees."
  },
  {
   "property": "C58",
   "status": "proved",
   "theorems": [
    "C58_rays",
    "C58_on_cone",
    "C58_spread",
    "C58_not_unit",
    "C58_errors"
   ],
   "note": "The rays are on the cone and evenly spread when the axis has norm 1 within eps; other axes, which the constructor accepts, raise a runtime error."
  },
  {
   "property": "C59",
   "status": "partial",
   "theorems": [
    "C59_count",
    "C59_face_partial",
    "C59_face_flat",
    "C59_holes",
    "C59_errors"
   ],
   "note": "Count, faces of all edges of the outer ring and index errors proved; edges of inner rings raise ToBeImplemented (proved), apexes within boost's tolerance of a vertex are not covered."
  },
  {
   "property": "C60",
   "status": "proved",
   "theorems": [
    "C60_vertices",
    "C60_edges_partial",
    "C60_edge_at",
    "C60_isometric",
    "C60_nearly_isometric",
    "C60_construct",
    "C60_not_orthogonal",
    "C60_zero_axis_refuted",
    "C60_near",
    "C60_transform",
    "C60_rigid",
    "C60_equal",
    "C60_getters",
    "C60_errors"
   ],
   "note": "Vertices, exact isometry for orthonormal axes, isometry up to the tolerance for every accepted frame, rigid and affine transformations proved; a zero axis is accepted by the constructor (refutation)."
  },
  {
   "property": "C61",
   "status": "proved",
   "theorems": [
    "C61_defined",
    "C61_contains",
    "C61_intersects",
    "C61_exact",
    "C61_contains_composite",
    "C61_intersects_composite",
    "C61_empty",
    "C61_empty_refuted",
    "C61_documented_refuted",
    "C61_intersection",
    "C61_intersection_composite",
    "C61_add",
    "C61_add_monoid",
    "C61_access",
    "C61_is_as",
    "C61_equal",
    "C61_apply",
    "C61_apply_identity",
    "C61_errors"
   ],
   "note": "contains is the conjunction over the elements and intersects the disjunction (also without assuming that the elements answer); intersectionWith concatenates. Refuted beside it: an empty composite contains everything (C61_empty_refuted); the examples in the comments of Composite.hpp throw ToBeImplemented (C61_documented_refuted)."
  },
  {
   "property": "C62",
   "status": "partial",
   "theorems": [
    "C62_type",
    "C62_factories",
    "C62_add",
    "C62_associative",
    "C62_neutral",
    "C62_order_refuted",
    "C62_unknown_refuted",
    "C62_names",
    "C62_nameless_refuted",
    "C62_access",
    "C62_equal",
    "C62_results",
    "C62_errors"
   ],
   "note": "Proved for objects of the kinds the type tag knows. The statement is false for cones and composites: the type depends on the order (C62_order_refuted) and a sum with one alone is an error (C62_unknown_refuted); Cuboid has no name to print (C62_nameless_refuted)."
  },
  {
   "property": "C63",
   "status": "proved",
   "theorems": [
    "C63_line",
    "C63_segment",
    "C63_sets",
    "C63_empty_set_refuted",
    "C63_construct",
    "C63_construct_zero",
    "C63_through",
    "C63_errors",
    "C63_point_distance",
    "C63_line_distance",
    "C63_segment_distance",
    "C63_segment_set"
   ],
   "note": "Exact arithmetic. The empty set is special: an error for a line, never contained in a segment."
  },
  {
   "property": "C64",
   "status": "partial",
   "theorems": [
    "C64_polygon",
    "C64_multi",
    "C64_reflexive_partial",
    "C64_never",
    "C64_reflexive_refuted",
    "C64_symmetric",
    "C64_composite",
    "C64_composite_never"
   ],
   "note": "Points, polygons and multi-polygons are equal to themselves, composites of them too; PointSet, Line, Segment, LineString and Composite objects never are (refuted)."
  },
  {
   "property": "C65",
   "status": "partial",
   "theorems": [
    "C65_contains",
    "C65_segments",
    "C65_equal",
    "C65_undefined_point_refuted",
    "C65_closest_vertex_partial",
    "C65_closest_point_refuted",
    "C65_near",
    "C65_access",
    "C65_segment",
    "C65_errors"
   ],
   "note": "getPointClosestTo gives the closest vertex, which need not be the closest point of the line string (refuted). A line string with an undefined vertex is defined and not equal to itself."
  },
  {
   "property": "C66",
   "status": "partial",
   "theorems": [
    "C66_count",
    "C66_edges_partial",
    "C66_outer_edges_partial",
    "C66_hole_refuted"
   ],
   "note": "Polygons without inner rings, and the outer ring of all polygons; edges of inner rings throw ToBeImplemented (refuted)."
  },
  {
   "property": "C67",
   "status": "partial",
   "theorems": [
    "C67_rk4_partial",
    "C67_exact_partial",
    "C67_controlled_partial",
    "C67_tags",
    "C67_still",
    "C67_direction_refuted",
    "C67_stuck",
    "C67_errors"
   ],
   "note": "Proved when the last time has the sign of the direction (RK4: total, exact for fitting times; controlled steppers: when they return). Otherwise false: getSignedTimeStep uses the sign of the last absolute time; refuted with witnesses."
  },
  {
   "property": "C68",
   "status": "partial",
   "theorems": [
    "C68_same_state_partial",
    "C68_durations_partial",
    "C68_tag",
    "C68_refuted"
   ],
   "note": "False in general: the scalar form integrates from time 0 over the difference and tags with the duration (refuted). Proved: same state for RK4 from time 0 or for autonomous systems."
  },
  {
   "property": "C69",
   "status": "partial",
   "theorems": [
    "C69_rk4",
    "C69_controlled_partial",
    "C69_constant",
    "C69_constant_refuted",
    "C69_zero",
    "C69_errors"
   ],
   "note": "Proved for RK4 with every log type and for the other steppers without constant logging (when they return). False with constant logging (refuted; what it returns instead is proved)."
  },
  {
   "property": "C70",
   "status": "partial",
   "theorems": [
    "C70_array",
    "C70_single_refuted",
    "C70_fresh",
    "C70_kept",
    "C70_empty",
    "C70_duration",
    "C70_access"
   ],
   "note": "Proved except for the array holding only the start time, which leaves no observation (refuted)."
  },
  {
   "property": "C71",
   "status": "partial",
   "theorems": [
    "C71_positive",
    "C71_negative",
    "C71_count_refuted",
    "C71_zero_step",
    "C71_with_step_terminates_refuted"
   ],
   "note": "Refuted (C71_with_step_terminates_refuted: from 2^53 with step 1 the loop never ends; C71_count_refuted: the number of values differs from the exact one). C71_positive and C71_negative: when the bounds are within 2^52 steps of zero the loop ends, and the grid is described value by value with its rounding error."
  },
  {
   "property": "C72",
   "status": "proved",
   "theorems": [
    "C72_factory"
   ],
   "note": "Factory dispatch and reported type."
  },
  {
   "property": "C73",
   "status": "partial",
   "theorems": [
    "C73_access",
    "C73_errors",
    "C73_refuted"
   ],
   "note": "Rows, columns and indices 0-2 proved; operator() with index 3 reads outside the matrix (refuted)."
  },
  {
   "property": "C74",
   "status": "partial",
   "theorems": [
    "C74_partial",
    "C74_refuted"
   ],
   "note": "Proved for exactly unit quaternions; refuted for accepted quaternions with scalar part beyond 1."
  },
  {
   "property": "C75",
   "status": "partial",
   "theorems": [
    "C75_near",
    "C75_errors",
    "C75_refuted"
   ],
   "note": "Proved for tolerances in [0, 2 pi[; refuted outside (reduced modulo a turn)."
  },
  {
   "property": "C76",
   "status": "partial",
   "theorems": [
    "C76_sound",
    "C76_complete_partial",
    "C76_refuted"
   ],
   "note": "Equal implies same rotation always; the converse proved except for the identity, where it is refuted (360 degrees about x is not equal to 0 about z)."
  },
  {
   "property": "C77",
   "status": "partial",
   "theorems": [
    "C77_sound",
    "C77_complete_partial",
    "C77_refuted"
   ],
   "note": "Equal implies same rotation always; the converse proved away from gimbal lock, refuted at it."
  },
  {
   "property": "C78",
   "status": "proved",
   "theorems": [
    "C78_columns",
    "C78_rows",
    "C78_result"
   ],
   "note": "Right-handed triples build the rotation; every result has the given rows or columns."
  },
  {
   "property": "C79",
   "status": "partial",
   "theorems": [
    "C79_of_euler",
    "C79_to_euler_partial",
    "C79_of_vector",
    "C79_of_zero_vector",
    "C79_axes"
   ],
   "note": "All but EulerAngle::RotationVector at gimbal lock and its label (see C33)."
  },
  {
   "property": "C80",
   "status": "proved",
   "theorems": [
    "C80_product",
    "C80_transpose",
    "C80_equal_iff",
    "C80_undefined"
   ],
   "note": "Composition, inverse, equality, errors."
  },
  {
   "property": "C81",
   "status": "proved",
   "theorems": [
    "C81_components",
    "C81_round_trip",
    "C81_sum_and_scaling",
    "C81_unitary_euler"
   ],
   "note": "Round trips in both formats, componentwise operations, unitary Euler angles."
  },
  {
   "property": "C82",
   "status": "proved",
   "theorems": [
    "C82_equal_iff_3d",
    "C82_undefined_3d",
    "C82_equal_iff_2d",
    "C82_undefined_2d"
   ],
   "note": "Over the real numbers: matrices are compared entry by entry."
  },
  {
   "property": "C83",
   "status": "proved",
   "theorems": [
    "C83_translation_3d",
    "C83_rotation_vector_3d",
    "C83_rotation_matrix_3d",
    "C83_difference_3d",
    "C83_undefined_3d",
    "C83_translation_2d",
    "C83_rotation_2d",
    "C83_difference_2d",
    "C83_undefined_2d"
   ],
   "note": "Over the real numbers, for rotation vectors, rotation matrices and 2D angles."
  },
  {
   "property": "C84",
   "status": "proved",
   "theorems": [
    "C84_line",
    "C84_ray",
    "C84_segment",
    "C84_plane",
    "C84_undefined",
    "C84_center"
   ],
   "note": "Over the real numbers, for unit directions and normals, which the constructors establish."
  },
  {
   "property": "C85",
   "status": "proved",
   "theorems": [
    "C85_affine",
    "C85_rigid",
    "C85_plane_refuted",
    "C85_errors"
   ],
   "note": "Planes under a transformation that is not rigid: refuted (C85_plane_refuted), outside of the statement."
  },
  {
   "property": "C86",
   "status": "proved",
   "theorems": [
    "C86_pointset",
    "C86_point",
    "C86_pointset_intersection",
    "C86_line",
    "C86_ray",
    "C86_segment",
    "C86_line_set",
    "C86_empty"
   ],
   "note": "Over the real numbers, with the comparisons against 0.0 that the code makes."
  },
  {
   "property": "C87",
   "status": "proved",
   "theorems": [
    "C87_equal",
    "C87_undefined_point",
    "C87_access",
    "C87_closest",
    "C87_near",
    "C87_segment",
    "C87_errors"
   ],
   "note": "Over the real numbers; the order of the vertices matters."
  },
  {
   "property": "C88",
   "status": "partial",
   "theorems": [
    "C88_intersects",
    "C88_segment_partial",
    "C88_segment_degenerate",
    "C88_chord_refuted"
   ],
   "note": "Lines, rays and planes proved relative to the GTE contract. For segments: exact when the line crosses or misses by more than the tolerance (C88_segment_partial); chords with end points on the surface are missed (C88_chord_refuted)."
  },
  {
   "property": "C89",
   "status": "partial",
   "theorems": [
    "C89_line",
    "C89_ray_partial",
    "C89_segment_partial",
    "C89_degenerate",
    "C89_origin_refuted"
   ],
   "note": "Lines proved. For rays and segments an end point on the surface is dropped when contains rejects it, and two close points are merged (C89_ray_partial, C89_segment_partial, C89_origin_refuted)."
  },
  {
   "property": "C90",
   "status": "partial",
   "theorems": [
    "C90_equal_sound",
    "C90_equal_complete",
    "C90_equal_refuted",
    "C90_transform",
    "C90_identity",
    "C90_errors"
   ],
   "note": "Completeness of equality and transformation proved; equality is sound up to the tolerance only (C90_equal_sound), and large ellipsoids are all equal (C90_equal_refuted). Transformation assumes the contract of the eigenvalue solver; its failure raises a runtime error."
  },
  {
   "property": "C91",
   "status": "proved",
   "theorems": [
    "C91_contains",
    "C91_surface",
    "C91_sets",
    "C91_errors"
   ],
   "note": "Within the tolerance of edges and corners outside the solid the answer is left open by the statement."
  },
  {
   "property": "C92",
   "status": "partial",
   "theorems": [
    "C92_intersects",
    "C92_vertices",
    "C92_vertices_inside",
    "C92_vertices_refuted",
    "C92_near"
   ],
   "note": "Intersection tests and nearness proved (nearness is complete when the tolerance is less than half the extents). getVertices halves the extents: the vertices are those of a box half as large (C92_vertices) and are not contained in the cuboid (C92_vertices_inside, C92_vertices_refuted)."
  },
  {
   "property": "C93",
   "status": "proved",
   "theorems": [
    "C93_equal",
    "C93_rigid",
    "C93_cube",
    "C93_errors"
   ],
   "note": "Equality characterised exactly; transformation for proper rigid transformations."
  },
  {
   "property": "C94",
   "status": "partial",
   "theorems": [
    "C94_sphere_partial",
    "C94_sphere_refuted",
    "C94_rigid",
    "C94_transform_refuted",
    "C94_errors"
   ],
   "note": "Containment of a sphere proved for centres on the axis or further than eps from it, refuted next to the axis; rigid transformations proved, refuted for a shear."
  },
  {
   "property": "C95",
   "status": "partial",
   "theorems": [
    "C95_sphere",
    "C95_ellipsoid_partial",
    "C95_intersects",
    "C95_intersects_refuted",
    "C95_errors"
   ],
   "note": "Line strings proved exactly for spheres, with the caveats of C89 for ellipsoids; the intersection test is proved sound and refuted as complete (an ellipsoid inside the cone is missed for every n)."
  },
  {
   "property": "C96",
   "status": "proved",
   "theorems": [
    "C96_equality",
    "C96_equivalence",
    "C96_accessors",
    "C96_tolerances",
    "C96_constants"
   ],
   "note": "Equality characterised completely; accessors, Undefined and Default."
  },
  {
   "property": "C97",
   "status": "proved",
   "theorems": [
    "C97_line",
    "C97_segment",
    "C97_center",
    "C97_point",
    "C97_arithmetic",
    "C97_near",
    "C97_undefined"
   ],
   "note": "Exact arithmetic; lines with unit direction, as the constructors make them."
  },
  {
   "property": "C98",
   "status": "partial",
   "theorems": [
    "C98_construct",
    "C98_construct_undefined",
    "C98_equal",
    "C98_closest",
    "C98_distance",
    "C98_near_sound",
    "C98_near_answers",
    "C98_near_complete_partial",
    "C98_near_refuted",
    "C98_errors"
   ],
   "note": "isNear pairs greedily in iteration order; true answers are right, false answers are wrong for some orders (refuted), right when the second set is spread wider than twice the tolerance."
  },
  {
   "property": "C99",
   "status": "proved",
   "theorems": [
    "C99_images",
    "C99_errors"
   ],
   "note": "Every 2D transformation the library can make is a motion."
  },
  {
   "property": "C100",
   "status": "partial",
   "theorems": [
    "C100_construct",
    "C100_again",
    "C100_closed_input",
    "C100_errors",
    "C100_degenerate_refuted",
    "C100_near_refuted",
    "C100_vertices",
    "C100_vertex_at",
    "C100_near"
   ],
   "note": "Proved for rings whose first vertex is not within boost's tolerance of its neighbours; the degenerate and near-duplicate cases are refuted, getVertexAt on inner rings is not implemented."
  },
  {
   "property": "C101",
   "status": "proved",
   "theorems": [
    "C101_contains",
    "C101_sets",
    "C101_lines",
    "C101_errors",
    "C101_transform",
    "C101_transform_contains",
    "C101_transform_errors"
   ],
   "note": "From contracts for covered_by on valid polygons (Poly2Spec), met by the reference instance of Poly2Ref."
  },
  {
   "property": "C102",
   "status": "partial",
   "theorems": [
    "C102_round_trip",
    "C102_contains",
    "C102_sets_unimplemented",
    "C102_sets_refuted",
    "C102_transform",
    "C102_union",
    "C102_hull",
    "C102_degenerate_refuted",
    "C102_errors"
   ],
   "note": "contains(PointSet) is not implemented and two-vertex polygons do not survive (refuted)."
  },
  {
   "property": "C103",
   "status": "partial",
   "theorems": [
    "C103_defined",
    "C103_contains",
    "C103_any_contains",
    "C103_contains_composite",
    "C103_any_contains_composite",
    "C103_any_contains_refuted",
    "C103_intersects_never",
    "C103_intersects_refuted",
    "C103_empty",
    "C103_add",
    "C103_add_monoid",
    "C103_access",
    "C103_is_as",
    "C103_apply",
    "C103_apply_identity",
    "C103_errors"
   ],
   "note": "intersects never answers (refuted), anyContains(Composite) differs from its documentation (refuted); the rest is proved."
  },
  {
   "property": "C104",
   "status": "partial",
   "theorems": [
    "C104_type",
    "C104_factories",
    "C104_add",
    "C104_associative",
    "C104_neutral",
    "C104_order_refuted",
    "C104_unknown_refuted",
    "C104_equality",
    "C104_reflexive_refuted",
    "C104_access",
    "C104_errors"
   ],
   "note": "Type and algebra proved; with objects of an unknown kind the type depends on the order (refuted), and == is not reflexive (refuted)."
  },
  {
   "property": "C105",
   "status": "partial",
   "theorems": [
    "C105_difference",
    "C105_overlap",
    "C105_disjoint",
    "C105_touch_point",
    "C105_touch_line",
    "C105_two_refuted",
    "C105_errors"
   ],
   "note": "Polygons, one line string, one point; several line strings or points are not implemented (refuted)."
  },
  {
   "property": "C106",
   "status": "proved",
   "theorems": [
    "C106_contains",
    "C106_solid",
    "C106_beyond_refuted",
    "C106_set",
    "C106_segment",
    "C106_segment_refuted",
    "C106_flat",
    "C106_rigid",
    "C106_errors"
   ],
   "note": "contains characterised exactly; the solid pyramid is contained, points beyond the base are too (refutation of the solid reading); segments are tested at their ends only (refutation)."
  },
  {
   "property": "C107",
   "status": "partial",
   "theorems": [
    "C107_face",
    "C107_ends",
    "C107_face_lined",
    "C107_rays",
    "C107_few",
    "C107_holes",
    "C107_sphere",
    "C107_ellipsoid_partial",
    "C107_intersects_sphere",
    "C107_intersects_ellipsoid",
    "C107_intersects_refuted",
    "C107_transform",
    "C107_equal",
    "C107_errors"
   ],
   "note": "Rays, sphere intersections and both intersects tests proved; ellipsoid intersections up to merging of points closer than the tolerance; a ball inside the pyramid is missed by intersects (refutation); bases with holes raise ToBeImplemented (proved)."
  },
  {
   "property": "C108",
   "status": "proved",
   "theorems": [
    "C108_equal",
    "C108_equivalence",
    "C108_equal_undefined",
    "C108_intersects",
    "C108_contains",
    "C108_symmetric",
    "C108_inter_symmetric",
    "C108_one_way_refuted",
    "C108_polygons_diverge",
    "C108_polygons_refuted",
    "C108_solids_unimplemented",
    "C108_solids_refuted",
    "C108_undefined"
   ],
   "note": "Equality for points, point sets, lines, rays, segments, line strings, planes, spheres and composites of these. Refuted beside it: two polygons never get an intersection, the call recurses for ever (C108_polygons_refuted); points in spheres, ellipsoids and cuboids are not looked at (C108_solids_refuted); one direction may be missing (C108_one_way_refuted)."
  },
  {
   "property": "C110",
   "status": "partial",
   "theorems": [
    "C110_integers",
    "C110_accuracy",
    "C110_precision",
    "C110_halves",
    "C110_digits_refuted",
    "C110_infinity_refuted",
    "C110_empty_refuted"
   ],
   "note": "integers, infinity and NaN are read back exactly and all finite numbers to 15 digits; exact equality is false in general (refuted)"
  },
  {
   "property": "C111",
   "status": "partial",
   "theorems": [
    "C111_accepted",
    "C111_rejected",
    "C111_size",
    "C111_pieces",
    "C111_hexadecimal",
    "C111_garbage_refuted"
   ],
   "note": "what is accepted and read is proved for all strings; that only texts of numbers are accepted is refuted"
  },
  {
   "property": "C112",
   "status": "proved",
   "theorems": [
    "C112_defined",
    "C112_round_trip",
    "C112_other_format",
    "C112_errors",
    "C112_four",
    "C112_components",
    "C112_precision"
   ],
   "note": "for components that are printed exactly (integers); the accuracy of the others is C110"
  },
  {
   "property": "C113",
   "status": "partial",
   "theorems": [
    "C113_defined",
    "C113_unambiguous",
    "C113_integers",
    "C113_precision_refuted"
   ],
   "note": "same text implies same shape and element texts; the same matrix if the elements are printed exactly; refuted otherwise"
  },
  {
   "property": "C114",
   "status": "partial",
   "theorems": [
    "C114_names",
    "C114_named",
    "C114_intersections",
    "C114_cuboid_refuted"
   ],
   "note": "all nine enumerations; refuted for intersections of type Cuboid, which have no name"
  },
  {
   "property": "C115",
   "status": "proved",
   "theorems": [
    "C115_angle",
    "C115_angle_defined",
    "C115_rotation_vector",
    "C115_euler_angle",
    "C115_point"
   ],
   "note": "numbers are printed by an arbitrary function without the separators"
  },
  {
   "property": "C116",
   "status": "proved",
   "theorems": [
    "C116_interval",
    "C116_defined"
   ],
   "note": "numbers are printed by an arbitrary function without the separators"
  },
  {
   "property": "C117",
   "status": "partial",
   "theorems": [
    "C117_point",
    "C117_point_set",
    "C117_line_string",
    "C117_segment",
    "C117_line",
    "C117_printed",
    "C117_classes_refuted"
   ],
   "note": "within each class; refuted between classes and for composites"
  },
  {
   "property": "C109",
   "status": "proved",
   "theorems": [
    "C109_matrix",
    "C109_other",
    "C109_undefined",
    "C109_identity",
    "C109_plane",
    "C109_access",
    "C109_access_plane"
   ],
   "note": "All claims, with the exact tests of Eigen's isIdentity as the specification of the tolerance."
  },
  {
   "property": "C118",
   "status": "partial",
   "theorems": [
    "C118_defined",
    "C118_equal",
    "C118_classes",
    "C118_cuboids",
    "C118_intersects",
    "C118_inter",
    "C118_contains",
    "C118_cone",
    "C118_apply",
    "C118_undefined_intersection",
    "C118_contains_plane",
    "C118_apply_plane",
    "C118_never_plane",
    "C118_plane_refuted"
   ],
   "note": "All of space is proved. In the plane no call of intersects ever answers true (C118_never_plane), so that the last clause is refuted (C118_plane_refuted): an object does not intersect itself."
  },
  {
   "property": "C119",
   "status": "proved",
   "theorems": [
    "C119_angles",
    "C119_units",
    "C119_undefined_angle",
    "C119_interval",
    "C119_undefined_interval",
    "C119_interval_ne",
    "C119_sphere",
    "C119_sphere_undefined",
    "C119_sphere_ne",
    "C119_ellipsoid",
    "C119_ellipsoid_undefined",
    "C119_cuboid",
    "C119_cuboid_undefined",
    "C119_cone",
    "C119_cone_undefined",
    "C119_undefined",
    "C119_ne",
    "C119_matrices",
    "C119_points",
    "C119_points_undefined"
   ],
   "note": "Members of an undefined object are never read; the printing of objects is not modelled."
  },
  {
   "property": "C120",
   "status": "partial",
   "theorems": [
    "C120_lands",
    "C120_lands_refuted",
    "C120_congruent",
    "C120_integers",
    "C120_errors"
   ],
   "note": "Refuted when the width is not a double (C120_lands_refuted). C120_lands: the result is in the range when it is. C120_congruent: whole number of widths up to rounding. C120_integers: whole numbers exactly."
  },
  {
   "property": "C121",
   "status": "partial",
   "theorems": [
    "C121_reflexive",
    "C121_reflexive_refuted",
    "C121_symmetric_refuted",
    "C121_one_unit_refuted",
    "C121_transitive_refuted",
    "C121_integers",
    "C121_sound",
    "C121_sound_units",
    "C121_near_symmetric",
    "C121_near_reflexive",
    "C121_near_sound",
    "C121_near_integers",
    "C121_undefined",
    "C121_near_undefined"
   ],
   "note": "Reflexivity, symmetry and transitivity are refuted in double arithmetic (the *_refuted theorems). Proved: reflexive up to 2^52, exact for whole numbers of one unit, sound up to rounding for one and two units; nearness symmetric, reflexive and sound up to rounding."
  },
  {
   "property": "C122",
   "status": "proved",
   "theorems": [
    "C122_accurate",
    "C122_round_trip",
    "C122_exact_refuted",
    "C122_round_trip_refuted",
    "C122_errors"
   ],
   "note": "With the real number pi, by bounding the double constant Pi against it. C122_exact_refuted and C122_round_trip_refuted show that exactness, which is not claimed, fails."
  },
  {
   "property": "C123",
   "status": "partial",
   "theorems": [
    "C123_size",
    "C123_ends_refuted",
    "C123_errors"
   ],
   "note": "The last value need not be the bound (C123_ends_refuted: 10 values of [0, 1] end above 1, 11 below). The rest is C123_size."
  },
  {
   "property": "C124",
   "status": "partial",
   "theorems": [
    "C124_outside",
    "C124_accurate",
    "C124_node",
    "C124_monotone",
    "C124_node_refuted",
    "C124_inside_refuted"
   ],
   "note": "At a node the datum is returned only if the rise is a double, and the result rises only within a cell (C124_node_refuted, C124_inside_refuted); C124_outside, C124_accurate, C124_node and C124_monotone are what holds."
  },
  {
   "property": "C125",
   "status": "proved",
   "theorems": [
    "C125_one_unit",
    "C125_two_units",
    "C125_undefined"
   ],
   "note": "Over SpecFloat binary64, magnitudes up to 2^900; for two units the converted operand is at least 2^-900."
  },
  {
   "property": "C126",
   "status": "proved",
   "theorems": [
    "C126_origin",
    "C126_ends",
    "C126_whole",
    "C126_line_near",
    "C126_plane_near",
    "C126_segment_near",
    "C126_through_refuted",
    "C126_center",
    "C126_center_refuted",
    "C126_errors"
   ],
   "note": "Refuted: the line Through two points may reject the second point ((0,0,0) and (1,3,0)), and a segment its own center."
  },
  {
   "property": "C127",
   "status": "proved",
   "theorems": [
    "C127_accurate",
    "C127_symmetric",
    "C127_same",
    "C127_triangle",
    "C127_length",
    "C127_near",
    "C127_separate_refuted",
    "C127_errors"
   ],
   "note": "Refuted: two different points may be at distance zero, as squares underflow."
  },
  {
   "property": "C128",
   "status": "proved",
   "theorems": [
    "C128_whole",
    "C128_near",
    "C128_on_refuted",
    "C128_errors"
   ],
   "note": "Refuted: a point exactly on a sphere is rejected for tolerances up to 1/16 at a radius of about 2^24."
  },
  {
   "property": "C129",
   "status": "proved",
   "theorems": [
    "C129_origin",
    "C129_vertical",
    "C129_horizontal",
    "C129_near",
    "C129_accept_refuted",
    "C129_reject_refuted",
    "C129_errors"
   ],
   "note": "Refuted: at x = 2^60 the horizontal axis accepts a point at height 5; the line through zero along (1, 7) rejects the end of its own direction."
  },
  {
   "property": "C130",
   "status": "proved",
   "theorems": [
    "C130_direction",
    "C130_plane",
    "C130_segment",
    "C130_through",
    "C130_same",
    "C130_zero",
    "C130_equal",
    "C130_small_refuted",
    "C130_large_refuted",
    "C130_again_refuted",
    "C130_errors"
   ],
   "note": "Refuted: directions of size 2^-600 are refused, those of size 2^600 become the zero vector and the line contains every point, and a line built again from its origin and direction (1, 1, 0) differs from itself."
  },
  {
   "property": "C131",
   "status": "proved",
   "theorems": [
    "C131_accurate",
    "C131_whole",
    "C131_unit",
    "C131_conjugate",
    "C131_sign",
    "C131_equal",
    "C131_order",
    "C131_associative_refuted",
    "C131_norm",
    "C131_dot",
    "C131_inverse",
    "C131_inverse_refuted",
    "C131_quotient",
    "C131_zero",
    "C131_errors"
   ],
   "note": "Two refutations accompany it: products of three quaternions are not associative bit for bit, and a quaternion times its computed inverse need not equal the unit quaternion. The two orders in which the sum of four products can be evaluated are both covered."
  },
  {
   "property": "C132",
   "status": "partial",
   "theorems": [
    "C132_normalize",
    "C132_near",
    "C132_product",
    "C132_power_refuted",
    "C132_rotate",
    "C132_back",
    "C132_rectify",
    "C132_errors"
   ],
   "note": "Refuted for the fixed tolerance: the fifth power of a normalized quaternion is refused by rotateVector for tolerances from 2^-50 to 10 * 2^-53, and Real::Epsilon() is about 9.007 * 2^-53. Missing: components beyond 2^450 and tolerances beyond 2^-26."
  },
  {
   "property": "C133",
   "status": "proved",
   "theorems": [
    "C133_ends",
    "C133_accurate",
    "C133_same_refuted",
    "C133_errors"
   ],
   "note": "Refuted beyond that: interpolating between a quaternion and itself may give a different quaternion."
  },
  {
   "property": "C134",
   "status": "partial",
   "theorems": [
    "C134_near",
    "C134_turn",
    "C134_length",
    "C134_back",
    "C134_transposed",
    "C134_product",
    "C134_whole",
    "C134_right",
    "C134_power_refuted",
    "C134_unit",
    "C134_equal",
    "C134_transpose",
    "C134_transposed_refuted",
    "C134_length_refuted",
    "C134_errors"
   ],
   "note": "Refuted for the fixed tolerance: the fourth power of an accepted matrix is refused for tolerances from 2^-50 to 10 * 2^-53; an accepted matrix may have a refused transpose; the zero matrix is accepted. Missing: accuracy for tolerances beyond 2^-26."
  },
  {
   "property": "C135",
   "status": "partial",
   "theorems": [
    "C135_accepted",
    "C135_entries",
    "C135_agree",
    "C135_quaternion",
    "C135_back",
    "C135_refuted",
    "C135_errors"
   ],
   "note": "Refuted for equal tolerances: an accepted quaternion may have a refused matrix for tolerances from 2^-50 to 2^-49, and Real::Epsilon() is one of them. Missing: components beyond 2^450 and tolerances beyond 2^-26."
  },
  {
   "property": "C136",
   "status": "partial",
   "theorems": [
    "C136_near",
    "C136_same",
    "C136_symmetric",
    "C136_tolerance",
    "C136_zero_refuted",
    "C136_errors",
    "C136_shape_refuted",
    "C136_filled",
    "C136_empty_refuted",
    "C136_axes"
   ],
   "note": "Refuted: equal sizes do not imply equal shapes, so isNear of a row and a column reaches an undefined difference; an undefined matrix without elements counts as defined; distinct matrices are near for the tolerance zero when the squares underflow. Missing: elements beyond 2^450."
  },
  {
   "property": "C137",
   "status": "partial",
   "theorems": [
    "C137_accurate",
    "C137_vector",
    "C137_translation",
    "C137_identity",
    "C137_whole",
    "C137_back",
    "C137_back_refuted",
    "C137_errors"
   ],
   "note": "Refuted: translating there and back need not return to the point (2^60 and 1). Missing: products beyond 2^900; the flag isRigid_ is left to the exact model."
  },
  {
   "property": "C138",
   "status": "partial",
   "theorems": [
    "C138_accurate",
    "C138_affine",
    "C138_identity",
    "C138_translations",
    "C138_equal",
    "C138_errors",
    "C138_agree_refuted",
    "C138_associative_refuted"
   ],
   "note": "Refuted: composing first may give another point than applying in turn, and composition is not associative. Missing: entries beyond 2^200."
  },
  {
   "property": "C139",
   "status": "partial",
   "theorems": [
    "C139_rotation2",
    "C139_rotation3",
    "C139_matrix",
    "C139_point",
    "C139_center",
    "C139_center_refuted",
    "C139_turn",
    "C139_errors"
   ],
   "note": "Refuted: the center is not fixed exactly. Missing: entries beyond 2^200; the cosine and sine are those given."
  },
  {
   "property": "C140",
   "status": "partial",
   "theorems": [
    "C140_exact",
    "C140_accurate",
    "C140_back",
    "C140_translation",
    "C140_rotation",
    "C140_singular_refuted",
    "C140_corner_refuted",
    "C140_errors"
   ],
   "note": "Refuted: singular matrices are inverted to coefficients that are not numbers, without an error; the last coefficient of the inverse of an affine matrix need not be 1. Missing: the inverse in space (Eigen's vectorized inverse of four rows is not modelled), entries beyond 2^100."
  },
  {
   "property": "C141",
   "status": "proved",
   "theorems": [
    "C141_accurate",
    "C141_turn",
    "C141_zero",
    "C141_axis",
    "C141_vector",
    "C141_zero_vector",
    "C141_tiny_refuted",
    "C141_errors"
   ],
   "note": "C141_tiny_refuted: a vector of about 2^-1074 gets an axis of length almost 0."
  },
  {
   "property": "C142",
   "status": "proved",
   "theorems": [
    "C142_accepted",
    "C142_entries",
    "C142_turn",
    "C142_agree",
    "C142_zero",
    "C142_refuted",
    "C142_errors"
   ],
   "note": "C142_refuted: at Real::Epsilon the constructor may refuse its own matrix, for a normalized axis and correctly rounded cosine and sine."
  },
  {
   "property": "C143",
   "status": "proved",
   "theorems": [
    "C143_accepted",
    "C143_turn",
    "C143_opposite",
    "C143_zero",
    "C143_columns",
    "C143_checked",
    "C143_rows_refuted",
    "C143_errors"
   ],
   "note": "C143_rows_refuted: the check looks at columns only, so Columns may accept what Rows refuses."
  },
  {
   "property": "C144",
   "status": "proved",
   "theorems": [
    "C144_quaternion",
    "C144_turn",
    "C144_matrix",
    "C144_matrix_turn",
    "C144_agree",
    "C144_refuted",
    "C144_zero",
    "C144_errors"
   ],
   "note": "C144_refuted: for XYZ and ZXY the matrix and the quaternion are different rotations; the matrix uses the order z, y, x for all sequences."
  },
  {
   "property": "C145",
   "status": "proved",
   "theorems": [
    "C145_accurate",
    "C145_rotates",
    "C145_same",
    "C145_refused",
    "C145_opposite",
    "C145_close_refuted",
    "C145_errors"
   ],
   "note": "C145_close_refuted: at tolerances up to 9.8 * 2^-53, hence at the one of the library, nearly opposite vectors can give a rotation accepted as unitary that misses the target by 60 degrees. Between 9.8 and 10.4 * 2^-53 refusal of exactly opposite vectors is not stated."
  },
  {
   "property": "C146",
   "status": "proved",
   "theorems": [
    "C146_accurate",
    "C146_turn",
    "C146_succeeds",
    "C146_ends",
    "C146_refused",
    "C146_antipodal",
    "C146_errors"
   ],
   "note": "The rounding error of the whole computation is followed; every order of the sums of the norm."
  },
  {
   "property": "C147",
   "status": "partial",
   "theorems": [
    "C147_accepted",
    "C147_entries",
    "C147_turn",
    "C147_refused",
    "C147_zero",
    "C147_refuted",
    "C147_errors"
   ],
   "note": "Proved for sines of at least 2^-30. That the construction succeeds at the tolerance of the library for all pairs of vectors neither short nor parallel is refuted (C147_refuted): the matrix built may fail its own check by 29 * 2^-53."
  },
  {
   "property": "C148",
   "status": "partial",
   "theorems": [
    "C148_accurate",
    "C148_rotation",
    "C148_round_trip",
    "C148_unit",
    "C148_lost_refuted",
    "C148_above_refuted",
    "C148_errors"
   ],
   "note": "That every rotation survives is refuted (C148_lost_refuted: rotations by 2^-26 have quaternions with scalar part 1), and that every quaternion accepted as unitary has a rotation vector is refuted (C148_above_refuted). The arc cosine, cosine and sine are parameters with a stated error."
  },
  {
   "property": "C149",
   "status": "partial",
   "theorems": [
    "C149_exp",
    "C149_exp_short",
    "C149_boundary",
    "C149_log",
    "C149_round_trip",
    "C149_pow",
    "C149_pow_unit",
    "C149_pow_refuted",
    "C149_exp_refuted",
    "C149_turn_refuted",
    "C149_errors"
   ],
   "note": "Proved where the vector part is clearly longer than the tolerance, and for unit quaternions with non-negative scalar part. Elsewhere it is false: the exponential of 1 is 1 (C149_exp_refuted), the first power of 2 is 1 (C149_pow_refuted), and half of almost a whole turn is no turn (C149_turn_refuted). The functions of the C library are parameters with a stated absolute error. Exponents beyond 1 are not treated."
  },
  {
   "property": "C150",
   "status": "proved",
   "theorems": [
    "C150_accurate",
    "C150_formula",
    "C150_ends",
    "C150_turn",
    "C150_refused",
    "C150_errors"
   ],
   "note": "The rounding error of the whole computation is followed; the functions of the C library are parameters with a stated absolute error e of at most 1/1000, every order of the sums of the norms."
  },
  {
   "property": "C151",
   "status": "proved",
   "theorems": [
    "C151_accurate",
    "C151_orders",
    "C151_same",
    "C151_order",
    "C151_symmetric_refuted",
    "C151_refused"
   ],
   "note": "The whole computation is followed with its roundings; std::acos is a parameter with a stated absolute error e of at most 1/1000, and nothing is asked of it outside of -1 to 1. The two orders need not agree exactly (C151_symmetric_refuted)."
  },
  {
   "property": "C152",
   "status": "partial",
   "theorems": [
    "C152_near",
    "C152_threshold",
    "C152_same",
    "C152_order",
    "C152_symmetric_refuted",
    "C152_monotone_refuted",
    "C152_negative",
    "C152_errors"
   ],
   "note": "Proved for tolerances between 0 and 6.28 radians up to the rounding of the angle. The answer can depend on the order (C152_symmetric_refuted), and a tolerance of a whole turn is stricter than smaller ones (C152_monotone_refuted). Tolerances in other units go through C122."
  },
  {
   "property": "C153",
   "status": "partial",
   "theorems": [
    "C153_matrix",
    "C153_quaternion",
    "C153_quaternion_other",
    "C153_rotvec",
    "C153_round_trip",
    "C153_first",
    "C153_label",
    "C153_label_refuted",
    "C153_gimbal_refuted",
    "C153_errors"
   ],
   "note": "In gimbal lock the middle angle can be undefined (C153_gimbal_refuted), and the result is always labelled ZYX, so for XYZ and ZXY the angles do not name the rotation under their own label (C153_label_refuted). Rotation vectors are done for ZYX only."
  },
  {
   "property": "C154",
   "status": "partial",
   "theorems": [
    "C154_matrix",
    "C154_kept",
    "C154_rectify",
    "C154_rectify_refuted",
    "C154_half_refuted",
    "C154_above_refuted",
    "C154_lost_refuted",
    "C154_errors"
   ],
   "note": "Missing: matrices with sin th squared below 16 dl + 2^-46. There the claim is false: half turns have no rotation vector (C154_half_refuted), traces above 3 neither (C154_above_refuted), small rotations are lost (C154_lost_refuted). Beyond a turn rectify can leave a negative angle (C154_rectify_refuted)."
  },
  {
   "property": "C155",
   "status": "partial",
   "theorems": [
    "C155_sound",
    "C155_reflexive",
    "C155_opposite",
    "C155_zero",
    "C155_axes",
    "C155_rectified_refuted",
    "C155_turn_refuted",
    "C155_euler_sound",
    "C155_euler_reflexive",
    "C155_euler_flipped",
    "C155_euler_other",
    "C155_euler_symmetric_refuted",
    "C155_unit",
    "C155_unit_map",
    "C155_unit_short",
    "C155_unit_refuted",
    "C155_undefined",
    "C155_ne"
   ],
   "note": "Proved: equal values stand for the same rotation, reflexivity, opposite axes, the other triple of Euler angles, different axes and sequences, undefined values, isUnitary. False of the code: symmetry, equality of a rotation vector with its rectified form, and of a whole turn with no rotation (refuted with witnesses). Missing: angles beyond the stated bounds, where the loop of the comparison need not end."
  },
  {
   "property": "C156",
   "status": "partial",
   "theorems": [
    "C156_near",
    "C156_same",
    "C156_vector",
    "C156_zero",
    "C156_errors",
    "C156_tolerance"
   ],
   "note": "Proved for tolerances from 0 to 6.28 radians and, for the rotation vector, for rotations whose half angle has a sine of at least the square root of 200 e + 2^-44; below that the axis of the exact rotation is not determined by the quaternion (C148_lost_refuted). Tolerances in other units go through C122."
  },
  {
   "property": "C157",
   "status": "proved",
   "theorems": [
    "C157_line",
    "C157_ray",
    "C157_origin",
    "C157_segment",
    "C157_degenerate",
    "C157_first",
    "C157_second_refuted",
    "C157_set",
    "C157_errors",
    "C157_set_errors"
   ],
   "note": "Distances of points to lines, rays and segments over binary64, against least distances to the sets of points over the reals; c157_second_refuted shows the far end of a segment at a positive distance. Coordinates up to 2^200; overflow beyond is not covered."
  },
  {
   "property": "C158",
   "status": "proved",
   "theorems": [
    "C158_point",
    "C158_near",
    "C158_length",
    "C158_direction",
    "C158_zero_vector",
    "C158_line",
    "C158_origin",
    "C158_segment",
    "C158_degenerate",
    "C158_first",
    "C158_second_refuted",
    "C158_set",
    "C158_errors",
    "C158_undefined_line",
    "C158_set_errors"
   ],
   "note": "Points, lines and segments of the plane over binary64, against distances and least distances over the reals; c158_second_refuted shows the far end of a segment at a positive distance. Overflow beyond the stated sizes is not covered."
  },
  {
   "property": "C159",
   "status": "proved",
   "theorems": [
    "C159_closest",
    "C159_closest_plane",
    "C159_distance",
    "C159_distance_plane",
    "C159_near",
    "C159_near_plane",
    "C159_sizes",
    "C159_set_near",
    "C159_set_near_plane",
    "C159_set_sizes",
    "C159_set_near_errors",
    "C159_set_matching_refuted",
    "C159_errors",
    "C159_undefined_point",
    "C159_near_errors"
   ],
   "note": "Closest points, distances and nearness over binary64, against distances over the reals; c159_set_matching_refuted shows that nearness of sets depends on the order of their points. Overflow beyond the stated sizes is not covered."
  },
  {
   "property": "C160",
   "status": "proved",
   "theorems": [
    "C160_sound",
    "C160_complete",
    "C160_total",
    "C160_corner_refuted",
    "C160_errors"
   ],
   "note": "Points of the surface of cuboids over binary64, against coordinates over the reals; c160_corner_refuted shows a corner lost to rounding. The tests against the extents have no tolerance in the code, so points within rounding of an edge may go either way."
  }
 ]
}
