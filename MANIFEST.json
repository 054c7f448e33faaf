{
 "claims": [
  {
   "property": "C01",
   "status": "proved",
   "theorems": [
    "C01_mesh_refines_lists",
    "C01_add_vertex",
    "C01_add_triangle"
   ],
   "note": ""
  },
  {
   "property": "C02",
   "status": "proved",
   "theorems": [
    "C02_triangles_have_vertices"
   ],
   "note": ""
  },
  {
   "property": "C03",
   "status": "proved",
   "theorems": [
    "C03_unlink_is_local",
    "C03_unlink_is_permanent"
   ],
   "note": ""
  },
  {
   "property": "C04",
   "status": "proved",
   "theorems": [
    "C04_copy_is_faithful"
   ],
   "note": ""
  },
  {
   "property": "C05",
   "status": "partial",
   "theorems": [
    "C05_self_assignment_empties",
    "C05_refuted"
   ],
   "note": "The property is false of the code: C05_refuted gives a witness and C05_self_assignment_empties shows that m = m empties every mesh."
  },
  {
   "property": "C06",
   "status": "partial",
   "theorems": [
    "C06_no_sharing_no_double_free",
    "C06_one_leak_per_assignment",
    "C06_no_leak_refuted"
   ],
   "note": "Ownership, isolation and absence of double free are proved; the no-leak half is false (C06_no_leak_refuted); C06_one_leak_per_assignment counts the leaks exactly."
  },
  {
   "property": "C07",
   "status": "proved",
   "theorems": [
    "C07_add_mesh_appends"
   ],
   "note": ""
  },
  {
   "property": "C08",
   "status": "partial",
   "theorems": [
    "C08_self_append_diverges",
    "C08_refuted",
    "C08_self_append_without_vertices"
   ],
   "note": "The property is false of the code: m.add_mesh(m) diverges for every mesh with a vertex (C08_self_append_diverges, C08_refuted); without vertices it returns (C08_self_append_without_vertices)."
  },
  {
   "property": "C09",
   "status": "proved",
   "theorems": [
    "C09_flip_reverses_orientation",
    "C09_flip_replaces_one_triangle"
   ],
   "note": ""
  },
  {
   "property": "C10",
   "status": "proved",
   "theorems": [
    "C10_split_preserves_surface",
    "C10_split_boundary"
   ],
   "note": ""
  },
  {
   "property": "C11",
   "status": "partial",
   "theorems": [
    "C11_split_edge_opens",
    "C11_refuted"
   ],
   "note": "False as stated (C11_refuted). C11_split_edge_opens: for triangles running along the edge in opposite directions the call stops on an assertion or leaves an open mesh."
  },
  {
   "property": "C12",
   "status": "proved",
   "theorems": [
    "C12_quad_outline",
    "C12_add_quad",
    "C12_add_pentagon",
    "C12_optim_picks_smaller_surface"
   ],
   "note": ""
  },
  {
   "property": "C13",
   "status": "proved",
   "theorems": [
    "C13_apply_transform"
   ],
   "note": ""
  },
  {
   "property": "C14",
   "status": "partial",
   "theorems": [
    "C14_kernels_agree",
    "C14_nearness_refuted"
   ],
   "note": "Proved for all vertex and triangle storage calls; the nearness query get_near_triangles differs (C14_nearness_refuted)."
  },
  {
   "property": "C15",
   "status": "partial",
   "theorems": [
    "C15_linked_kernel_stores",
    "C15_tin_kernel_stores",
    "C15_half_edge_refuted",
    "C15_half_edge_vertices",
    "C15_negative_index_refuted"
   ],
   "note": "True of the linked and TIN kernels; false of the half-edge kernel after every history (C15_half_edge_refuted)."
  },
  {
   "property": "C16",
   "status": "proved",
   "theorems": [
    "C16_surface_is_sum_of_areas",
    "C16_unlinked_triangles_do_not_count"
   ],
   "note": ""
  },
  {
   "property": "C17",
   "status": "proved",
   "theorems": [
    "C17_volume_translation_invariant",
    "C17_index_closed_is_closed"
   ],
   "note": ""
  },
  {
   "property": "C18",
   "status": "proved",
   "theorems": [
    "C18_rotation_invariant",
    "C18_uniform_scale",
    "C18_scale_volume",
    "C18_mirror_negates_volume"
   ],
   "note": ""
  },
  {
   "property": "C19",
   "status": "proved",
   "theorems": [
    "C19_box",
    "C19_tetrahedron",
    "C19_octahedron"
   ],
   "note": "Sizes of any sign for the box (surface with absolute values), non-negative for the others; over the reals."
  },
  {
   "property": "C20",
   "status": "partial",
   "theorems": [
    "C20_is_closed_only_if_empty",
    "C20_refuted",
    "C20_is_clean_only_if_empty",
    "C20_reads_the_links"
   ],
   "note": "False as stated (C20_refuted): is_closed and is_clean are true exactly for meshes without a linked triangle. C20_reads_the_links: what is_closed answers for a mesh in any state."
  },
  {
   "property": "C21",
   "status": "proved",
   "theorems": [
    "C21_no_degenerated_exact"
   ],
   "note": ""
  },
  {
   "property": "C22",
   "status": "proved",
   "theorems": [
    "C22_merge_vertices_sound"
   ],
   "note": ""
  },
  {
   "property": "C23",
   "status": "proved",
   "theorems": [
    "C23_remove_empty_exact"
   ],
   "note": ""
  },
  {
   "property": "C24",
   "status": "partial",
   "theorems": [
    "C24_height_field_cells_partial",
    "C24_height_field_faces_up_partial",
    "C24_grid_cells_partial",
    "C24_size_mismatch_stops",
    "C24_large_sizes_refuted"
   ],
   "note": "Cells, heights, orientation, and the assertion on a size mismatch, for products of sizes that fit an int. Beyond that iSizeX*iSizeY overflows before the test: C24_large_sizes_refuted."
  },
  {
   "property": "C25",
   "status": "proved",
   "theorems": [
    "C25_tessellation_keeps_shape",
    "C25_tessellation_nonpositive"
   ],
   "note": ""
  },
  {
   "property": "C26",
   "status": "proved",
   "theorems": [
    "C26_fixed_solids_closed",
    "C26_icosahedron_closed",
    "C26_round_solids_closed",
    "C26_negative_count"
   ],
   "note": "Any arithmetic where dividing by a positive integer does not fault (reals and doubles shown); the geodesic sphere is not among the listed solids."
  },
  {
   "property": "C27",
   "status": "proved",
   "theorems": [
    "C27_on_surface",
    "C27_geodesic"
   ],
   "note": "Over the reals; the two cap centres of the cylinder are on its axis. Geodesic for n >= 1 (n = 0 divides by zero)."
  },
  {
   "property": "C28",
   "status": "partial",
   "theorems": [
    "C28_two_repeats_refuted",
    "C28_sphere_torus"
   ],
   "note": "False for every segment count: each cap has exactly one triangle with a repeated vertex (C28_two_repeats_refuted); all other triangles are fine, sphere and torus have none."
  },
  {
   "property": "C29",
   "status": "proved",
   "theorems": [
    "C29_plane_through_three_points",
    "C29_collinear_points_divide_by_zero"
   ],
   "note": ""
  },
  {
   "property": "C30",
   "status": "proved",
   "theorems": [
    "C30_projection_is_nearest_point"
   ],
   "note": ""
  },
  {
   "property": "C31",
   "status": "proved",
   "theorems": [
    "C31_plane_segment_exact"
   ],
   "note": ""
  },
  {
   "property": "C32",
   "status": "partial",
   "theorems": [
    "C32_refuted",
    "C32_line_never_written",
    "C32_answer_partial"
   ],
   "note": "The property is false of the code (C32_refuted): the line argument is never written. The boolean answer is characterised exactly."
  },
  {
   "property": "C33",
   "status": "partial",
   "theorems": [
    "C33_refuted",
    "C33_contains_characterised",
    "C33_contains_off_line_partial"
   ],
   "note": "False as stated (C33_refuted): every point of the infinite line through the second and third corner is accepted. Exact characterisation proved; exact for all other coplanar points."
  },
  {
   "property": "C34",
   "status": "partial",
   "theorems": [
    "C34_soundness_refuted",
    "C34_completeness_refuted",
    "C34_complete_partial",
    "C34_sound_partial",
    "C34_exact_in_general_position_partial"
   ],
   "note": "False as stated in both directions (refutations given). Proved: complete when no corner lies in the other plane, exact in general position, and what a positive answer guarantees in all cases."
  },
  {
   "property": "C35",
   "status": "partial",
   "theorems": [
    "C35_refuted",
    "C35_point_on_first_segment_partial",
    "C35_common_point_found_partial"
   ],
   "note": "False as stated (C35_refuted): the second segment is not checked. Proved: the point is on the first segment and is the foot of the common perpendicular; segments that meet are found."
  },
  {
   "property": "C36",
   "status": "proved",
   "theorems": [
    "C36_smallest_box_double",
    "C36_any_order_double",
    "C36_intersect_double",
    "C36_box_is_smallest",
    "C36_box_order_independent",
    "C36_intersect_exact",
    "C36_empty_box_acts_as_origin"
   ],
   "note": "Over the reals and, in the order of the machine, for doubles without NaN (infinities allowed)."
  },
  {
   "property": "C37",
   "status": "proved",
   "theorems": [
    "C37_point_algebra"
   ],
   "note": ""
  },
  {
   "property": "C38",
   "status": "proved",
   "theorems": [
    "C38_angle_axis_is_proper_rotation"
   ],
   "note": ""
  },
  {
   "property": "C39",
   "status": "proved",
   "theorems": [
    "C39_rotations_compose"
   ],
   "note": ""
  },
  {
   "property": "C40",
   "status": "partial",
   "theorems": [
    "C40_euler_is_an_improper_isometry",
    "C40_refuted"
   ],
   "note": "Isometry proved for all angles; orientation is reversed for all angles and zero angles are not the identity, so the property as stated is false (C40_refuted)."
  },
  {
   "property": "C41",
   "status": "proved",
   "theorems": [
    "C41_effect",
    "C41_translations_form_a_group",
    "C41_scales_form_a_group",
    "C41_apply_all_is_pointwise"
   ],
   "note": ""
  },
  {
   "property": "C42",
   "status": "partial",
   "theorems": [
    "C42_set_knots_double",
    "C42_overflow_gives_nan",
    "C42_never_nan_refuted",
    "C42_set_knots_normalises_partial",
    "C42_constant_knots_divide_by_zero"
   ],
   "note": "Proved over the reals (with the exact case of division by zero) and for finite doubles whose range does not overflow: finite, sorted, from 0 to 1, idempotent. When last minus first knot overflows the last knot becomes NaN, so 'never NaN' is false (C42_never_nan_refuted)."
  },
  {
   "property": "C43",
   "status": "proved",
   "theorems": [
    "C43_find_knot_span_double",
    "C43_find_knot_span_nan",
    "C43_find_knot_span",
    "C43_search_total"
   ],
   "note": "Over the reals and in doubles, knots from 0 to 1 (what set_knots produces), every t that is not NaN; totality for arbitrary lists; NaN gives -1."
  },
  {
   "property": "C44",
   "status": "proved",
   "theorems": [
    "C44_set_uniform_double",
    "C44_built_curve_double",
    "C44_surface_uniform_u",
    "C44_surface_uniform_v",
    "C44_built_surface_double",
    "C44_set_uniform_valid",
    "C44_built_curve_is_valid"
   ],
   "note": "Curves and both directions of surfaces, over the reals and in doubles; also that curves and surfaces built through the API are ready for evaluation."
  },
  {
   "property": "C45",
   "status": "proved",
   "theorems": [
    "C45_evaluate_double",
    "C45_evaluate_nan",
    "C45_evaluate_never_faults"
   ],
   "note": "Over the reals, with the value; in doubles absence of faults for all points, weights and parameters but NaN (which asserts) and independence of the temporaries."
  },
  {
   "property": "C46",
   "status": "proved",
   "theorems": [
    "C46_end_points"
   ],
   "note": "End knots repeated exactly degree+1 times."
  },
  {
   "property": "C47",
   "status": "proved",
   "theorems": [
    "C47_evaluate_is_nurbs_formula"
   ],
   "note": "Against the Cox-de Boor recursion, over the reals."
  },
  {
   "property": "C48",
   "status": "proved",
   "theorems": [
    "C48_affine_invariance",
    "C48_transforms_are_affine"
   ],
   "note": "Any affine map; the transforms of the program are affine."
  },
  {
   "property": "C49",
   "status": "proved",
   "theorems": [
    "C49_convex_hull",
    "C49_bounding_box"
   ],
   "note": "Any half-space, and the bounding box."
  },
  {
   "property": "C50",
   "status": "proved",
   "theorems": [
    "C50_insert_knot_keeps_curve"
   ],
   "note": "Any degree, any u in [0,1], over the reals."
  },
  {
   "property": "C51",
   "status": "proved",
   "theorems": [
    "C51_elevation_degree_1"
   ],
   "note": "Interior knots repeated at most degree times (otherwise see C53)."
  },
  {
   "property": "C52",
   "status": "proved",
   "theorems": [
    "C52_elevation_degree_2"
   ],
   "note": "Interior knots repeated at most degree times."
  },
  {
   "property": "C53",
   "status": "partial",
   "theorems": [
    "C53_honest_exactly_when",
    "C53_lost_otherwise",
    "C53_division_by_zero",
    "C53_false_means_unchanged_partial",
    "C53_true_means_higher_degree_partial",
    "C53_high_degrees_refused",
    "C53_elevation_honest_refuted",
    "C53_degree_0_destroyed",
    "C53_degree_1_repeated_knot_destroyed"
   ],
   "note": "False as stated. C53_honest_exactly_when: for valid curves true means the same shape exactly for degree 1 or 2 with interior knots repeated at most degree times. C53_lost_otherwise: every other valid curve of degree below 3 can no longer be evaluated (or, degree 2 with the first knot repeated more than three times, the call may divide by zero). False leaves the curve unchanged, true raises the degree by one, degree >= 3 is refused."
  },
  {
   "property": "C54",
   "status": "partial",
   "theorems": [
    "C54_polyline_double_partial",
    "C54_small_curves_double",
    "C54_reaches_the_end_refuted",
    "C54_polyline_partial"
   ],
   "note": "Over the reals proved as stated. In doubles the end is false: curves with 2, 4, 5, 6 or 10 control points lose the last sample (C54_small_curves_double, C54_reaches_the_end_refuted). Proved up to 2^25/10 points: the loop ends with 10n or 10n+1 points, each on the curve at a parameter within i 2^-52 of i/(10n)."
  },
  {
   "property": "C55",
   "status": "partial",
   "theorems": [
    "C55_sequential_calls_partial",
    "C55_concurrent_evaluate_refuted"
   ],
   "note": "Refuted: two interleaved evaluate calls on one const curve both return a wrong point (shared mutable temporaries). Sequential calls are right."
  },
  {
   "property": "C56",
   "status": "proved",
   "theorems": [
    "C56_evaluate_double",
    "C56_evaluate_formula",
    "C56_corners",
    "C56_convex_hull",
    "C56_bounding_box",
    "C56_affine"
   ],
   "note": "Over the reals; absence of faults also in doubles."
  },
  {
   "property": "C57",
   "status": "partial",
   "theorems": [
    "C57_elevation_u_exactly_when",
    "C57_elevation_v_exactly_when",
    "C57_elevation_u_lost",
    "C57_elevation_v_lost",
    "C57_refuted",
    "C57_insert_knot_u",
    "C57_insert_knot_v",
    "C57_elevation_u_partial",
    "C57_elevation_v_partial",
    "C57_elevation_refused"
   ],
   "note": "False as stated (C57_refuted). Knot insertion proved for all valid surfaces. Degree elevation keeps the surface exactly for degrees 1 and 2 with interior knots repeated at most degree times (C57_elevation_u/v_exactly_when); other surfaces of degree below 3 are lost; degree 3 and above is refused without change."
  },
  {
   "property": "C58",
   "status": "partial",
   "theorems": [
    "C58_clear_as_new_partial",
    "C58_clear_refuted",
    "C58_equal_weights_partial",
    "C58_equal_weights_refuted"
   ],
   "note": "False as stated: clear() keeps the closed flags, set_equals_weights keeps old weights (refutations). Proved: exact behaviour, and equivalence with a new object when the flags were off and set_degree is called first."
  },
  {
   "property": "C59",
   "status": "proved",
   "theorems": [
    "C59_circle",
    "C59_sphere",
    "C59_torus",
    "C59_solids",
    "C59_cylinder",
    "C59_box"
   ],
   "note": "Circle also covers the whole circle; torus as the implicit quartic; cylinder as disk, side, disk; box faces too."
  },
  {
   "property": "C60",
   "status": "proved",
   "theorems": [
    "C60_revolve_height_radius",
    "C60_revolve_rotates",
    "C60_revolve_all_angles"
   ],
   "note": "Also: each parameter u is one rotation of the whole profile and every angle occurs."
  },
  {
   "property": "C61",
   "status": "proved",
   "theorems": [
    "C61_extrude"
   ],
   "note": "Over the reals, any valid profile and any direction."
  },
  {
   "property": "C62",
   "status": "proved",
   "theorems": [
    "C62_ruled",
    "C62_quad"
   ],
   "note": "The isoparametric line is exactly the segment, both inclusions."
  },
  {
   "property": "C63",
   "status": "partial",
   "theorems": [
    "C63_to_mesh_partial",
    "C63_closes_up_partial",
    "C63_consistent",
    "C63_fine_grid_refuted",
    "C63_no_segments",
    "C63_solid_to_mesh_partial"
   ],
   "note": "Counts, positions, connectivity, closing up and mesh consistency for grids of up to 46340 cells along u (and INT_MAX along v); seg=0 does nothing. Missing because false: beyond that the int product iNbPointsU*iNbPointsU of NurbsUtil.cpp:89 overflows, C63_fine_grid_refuted (an extruded polyline of 1000 points with 47 segments is enough)."
  },
  {
   "property": "C64",
   "status": "partial",
   "theorems": [
    "C64_from_z_refuted",
    "C64_not_square_refuted",
    "C64_from_z_partial",
    "C64_symmetric_partial"
   ],
   "note": "False as stated (refuted, also for square fields): (x,y) gets z[x*Y+y], and for X<>Y the control net is scrambled. Exact behaviour proved."
  },
  {
   "property": "C65",
   "status": "partial",
   "theorems": [
    "C65_from_mesh_partial",
    "C65_unlinked_refuted"
   ],
   "note": "False for unlinked triangles (C65_unlinked_refuted). Proved: one patch per triangle, corners, and patch = triangle as point sets."
  },
  {
   "property": "C66",
   "status": "proved",
   "theorems": [
    "C66_bernstein",
    "C66_partition_of_unity",
    "C66_range",
    "C66_end_points",
    "C66_affine"
   ],
   "note": "Over the reals; degrees 1 to 3, the ones BezierUtil offers."
  },
  {
   "property": "C67",
   "status": "partial",
   "theorems": [
    "C67_eval",
    "C67_corners",
    "C67_edges",
    "C67_flat",
    "C67_hull",
    "C67_transform",
    "C67_add_to_mesh",
    "C67_grid",
    "C67_triangle_count_refuted",
    "C67_area_refuted",
    "C67_no_segments"
   ],
   "note": "eval proved. The triangle count n^2 is false from 2 segments on: n^2-4n+6 triangles are made (C67_triangle_count_refuted) and a flat triangle is covered in that proportion only (C67_area_refuted); the triangles are turned opposite to P1,P2,P3. Vertices and all triangles characterised for every n; n = 0 divides by zero."
  },
  {
   "property": "C68",
   "status": "proved",
   "theorems": [
    "C68_tangent_planes",
    "C68_other_lengths",
    "C68_flat",
    "C68_centre"
   ],
   "note": "Over the reals, with the exact distance to the plane for other normals."
  },
  {
   "property": "C69",
   "status": "partial",
   "theorems": [
    "C69_container",
    "C69_self_refuted",
    "C69_add_to_mesh",
    "C69_flat_solids",
    "C69_triangulation_refuted",
    "C69_sphere_patches",
    "C69_sphere_corners",
    "C69_sphere_refuted",
    "C69_sphere_near"
   ],
   "note": "Container operations between different objects and flat solids proved. False: the sphere's patches are not on the sphere (exact band proved), self assignment empties, add_mesh on itself does not end, triangulated solids are inside out."
  },
  {
   "property": "C70",
   "status": "partial",
   "theorems": [
    "C70_address_in_buffer",
    "C70_addresses_disjoint",
    "C70_outside_asserts",
    "C70_put_get",
    "C70_large_image_refuted",
    "C70_resize",
    "C70_resize_wraps_refuted",
    "C70_convert_to_bw",
    "C70_convert_to_bw_few_planes_refuted",
    "C70_convert_to_bw_in_place_refuted",
    "C70_scale",
    "C70_to_double_wide_refuted",
    "C70_to_double_square_partial",
    "C70_shierpinsky",
    "C70_mandelbrot"
   ],
   "note": "Addresses, put/get, resize, black-and-white conversion, scaling and both generators proved for images whose row length and last row offset fit an int. Larger images overflow (C70_large_image_refuted) and a product of 2^64 leaves an empty buffer (C70_resize_wraps_refuted). to_double is false as stated: every image wider than high is written out of bounds (C70_to_double_wide_refuted), square images come out transposed; convert_to_bw asserts on fewer than three planes or in place."
  },
  {
   "property": "C71",
   "status": "partial",
   "theorems": [
    "C71_round_trip_32_partial",
    "C71_file_layout",
    "C71_large_image_refuted",
    "C71_zero_width_refuted"
   ],
   "note": "Proved for every width above zero (alpha becomes 0) when the pixel count and the file size fit an int; larger images overflow (C71_large_image_refuted), a zero-width image with rows asserts (C71_zero_width_refuted)."
  },
  {
   "property": "C72",
   "status": "partial",
   "theorems": [
    "C72_round_trip_8_partial",
    "C72_odd_width_refuted"
   ],
   "note": "Exact for even widths or at most one row; false for every odd width with two rows or more (C72_odd_width_refuted)."
  },
  {
   "property": "C73",
   "status": "partial",
   "theorems": [
    "C73_bottom_row_only_partial",
    "C73_rows_lost_refuted"
   ],
   "note": "False: only the bottom row of any well-formed file is loaded (C73_rows_lost_refuted); exact behaviour proved."
  },
  {
   "property": "C74",
   "status": "partial",
   "theorems": [
    "C74_reader_outcomes",
    "C74_no_other_fault",
    "C74_pixels",
    "C74_large_header_refuted",
    "C74_negative_height_refuted",
    "C74_truncated_file_refuted"
   ],
   "note": "All outcomes and all pixels characterised, no out-of-bounds access; but a legal top-down file asserts, a truncated file returns true with old pixels, and a header with huge dimensions overflows an int (refutations)."
  },
  {
   "property": "C75",
   "status": "proved",
   "theorems": [
    "C75_round_trip",
    "C75_round_trip_ieee",
    "C75_nearest_single",
    "C75_exact",
    "C75_second_trip"
   ],
   "note": "Any mesh reachable through the API with fewer than 2^31 linked triangles, for IEEE doubles and floats; rounding to the nearest single, exact when representable, second trip lossless. A conversion beyond the float range is left to IEEE overflow."
  },
  {
   "property": "C76",
   "status": "partial",
   "theorems": [
    "C76_any_bytes_partial",
    "C76_complete_file",
    "C76_truncated_refuted"
   ],
   "note": "False: a truncated file always gives true and invented triangles (C76_truncated_refuted). Proved: never fails on any bytes, exact result for every byte string, and complete files load exactly. A file that cannot be opened is not modelled."
  },
  {
   "property": "C77",
   "status": "proved",
   "theorems": [
    "C77_round_trip",
    "C77_save_load"
   ],
   "note": "Any list of meshes reachable through the API written to one file, loaded over any mesh. How << and >> treat doubles is a parameter: each coordinate comes back as what its printed text scans to (reads_as)."
  },
  {
   "property": "C78",
   "status": "partial",
   "theorems": [
    "C78_polyline_last_partial",
    "C78_any_history",
    "C78_after_polyline_refuted",
    "C78_indices_refuted"
   ],
   "note": "False: polyline indices start at 0 (C78_indices_refuted), and the record line is not ended, so the first vertex written afterwards is lost or loading asserts (C78_after_polyline_refuted). Proved: the exact result for every history of writes, and that a polyline written last loses nothing."
  },
  {
   "property": "C79",
   "status": "proved",
   "theorems": [
    "C79_doubles",
    "C79_well_formed",
    "C79_multiplicities",
    "C79_valid",
    "C79_few_knots_never_written"
   ],
   "note": "For all lists of solids of complete surfaces (all evaluable surfaces are). A surface with fewer than 2 deg + 2 knots is never written, the loop does not end (C79_few_knots_never_written)."
  },
  {
   "property": "C80",
   "status": "proved",
   "theorems": [
    "C80_within_buffers",
    "C80_arithmetics",
    "C80_clear",
    "C80_new",
    "C80_large_window"
   ],
   "note": "Every program of calls, reals and doubles. Other faults (assertion, division by zero, conversion out of range, int overflow) are possible and not counted as writes outside. A window of more than INT_MAX pixels cannot be made (C80_large_window)."
  },
  {
   "property": "C81",
   "status": "partial",
   "theorems": [
    "C81_depth_never_decreases",
    "C81_clear_is_clean",
    "C81_nearest_wins",
    "C81_order_irrelevant_partial",
    "C81_arithmetics",
    "C81_lines_refuted",
    "C81_ties_refuted"
   ],
   "note": "Proved for filled triangles, meshes and single pixels, reals and doubles; nearest wins, and the first drawn wins ties, so order shows in ties (C81_ties_refuted). False for draw_line, which can push a pixel back by up to 0.00001 (C81_lines_refuted)."
  },
  {
   "property": "C82",
   "status": "partial",
   "theorems": [
    "C82_channels_partial",
    "C82_too_bright_refuted",
    "C82_ambient_light",
    "C82_diffuse_light",
    "C82_black_without_lights",
    "C82_light_order",
    "C82_double_order_refuted"
   ],
   "note": "Over the reals, with the exact value, for lights under 8388607.998 in total; beyond, the conversion to int is undefined (C82_too_bright_refuted). Order of lights is irrelevant over the reals, but can change a level in doubles (C82_double_order_refuted)."
  },
  {
   "property": "C83",
   "status": "proved",
   "theorems": [
    "C83_screen_position",
    "C83_image_axes",
    "C83_new_camera",
    "C83_first_column_wide",
    "C83_in_front",
    "C83_distance_order",
    "C83_centre_line",
    "C83_rigid",
    "C83_one_ray_one_pixel",
    "C83_depth_zero_real",
    "C83_depth_zero_double"
   ],
   "note": "Over the reals, for points whose depth is not zero; at depth zero project divides before it tests (C83_depth_zero_*). The screen coordinates must fit an int."
  },
  {
   "property": "C84",
   "status": "partial",
   "theorems": [
    "C84_face_copy",
    "C84_face_assign_refuted",
    "C84_solid_copy_refuted",
    "C84_solid_assign_refuted",
    "C84_solid_add_face"
   ],
   "note": "False: both operators = leave the target as it is and return a new copy of it; copying a Solid drops its faces. Face copies and add_face are right."
  },
  {
   "property": "C85",
   "status": "partial",
   "theorems": [
    "C85_split_meshes_partial",
    "C85_refuted",
    "C85_bad_id_refuted"
   ],
   "note": "False as stated (C85_refuted, C85_bad_id_refuted). Proved: in general position both inputs are kept unchanged."
  },
  {
   "property": "C86",
   "status": "partial",
   "theorems": [
    "C86_outcomes_partial",
    "C86_short_line_refuted",
    "C86_bad_index_refuted",
    "C86_overflow_index_refuted",
    "C86_relative_index_refuted"
   ],
   "note": "False: a vertex line without numbers uses uninitialised values, a bad index asserts, and so do the relative (negative) indices the format allows; the index INT_MIN overflows (C86_overflow_index_refuted). Proved: on any text the load returns true with a well-formed mesh, or one of these three faults happens; no out-of-range access."
  },
  {
   "property": "C87",
   "status": "partial",
   "theorems": [
    "C87_rows_partial",
    "C87_transposed_refuted"
   ],
   "note": "False whenever the grid is not square: rows follow v, not u (C87_transposed_refuted). Proved: the exact layout that is written."
  },
  {
   "property": "C88",
   "status": "proved",
   "theorems": [
    "C88_icosahedron_regular",
    "C88_dodecahedron_regular"
   ],
   "note": "Over the reals."
  },
  {
   "property": "C89",
   "status": "proved",
   "theorems": [
    "C89_control_net_mesh"
   ],
   "note": "Over the reals: vertices, cuts, area, colour and consistency of the mesh."
  },
  {
   "property": "C90",
   "status": "partial",
   "theorems": [
    "C90_outcome",
    "C90_exact_in_general_position_partial",
    "C90_soundness_refuted",
    "C90_completeness_refuted",
    "C90_flat_triangle_divides_by_zero"
   ],
   "note": "The full claim is false (C90_soundness_refuted, C90_completeness_refuted). Proved: the exact outcome for all proper triangles, the full claim in general position, division by zero for flat triangles."
  },
  {
   "property": "C91",
   "status": "proved",
   "theorems": [
    "C91_cut_exact"
   ],
   "note": "Over the reals."
  },
  {
   "property": "C92",
   "status": "partial",
   "theorems": [
    "C92_outcomes_partial",
    "C92_general_position_never_splits",
    "C92_split_at_point",
    "C92_nothing_split_refuted",
    "C92_assertion_refuted",
    "C92_surface_refuted"
   ],
   "note": "The full claim is false (three refutations: nothing is split when triangles cross in general position, an assertion fires, the surface grows). Proved: every outcome, and what a split does to vertices, triangles, surface and volume."
  },
  {
   "property": "C93",
   "status": "partial",
   "theorems": [
    "C93_filled_triangle_partial",
    "C93_last_row_refuted",
    "C93_left_border_refuted",
    "C93_above_border_refuted"
   ],
   "note": "Over the reals, corners at non-negative screen coordinates, one pixel of horizontal tolerance; for any corners whose width and height on the screen fit an int, every pixel is unchanged or gets the colour, and a depth within the range of the corners. False in general: the last row of the window is never painted (any arithmetic), depths are wrong along the left border, and edges are wrong when the middle corner is above the window."
  },
  {
   "property": "C94",
   "status": "partial",
   "theorems": [
    "C94_culled",
    "C94_far_corners_refuted",
    "C94_far_line_refuted",
    "C94_drawn"
   ],
   "note": "Over the reals, when the differences of screen coordinates fit an int; the two theorems cover all such cases in which the corners project and the shaded colour exists. False for corners further apart: the culling test overflows, also for triangles outside the window (C94_far_corners_refuted); draw_line likewise."
  },
  {
   "property": "C95",
   "status": "proved",
   "theorems": [
    "C95_mesh",
    "C95_mesh_without_edges",
    "C95_polyline"
   ],
   "note": "Any arithmetic."
  },
  {
   "property": "C96",
   "status": "partial",
   "theorems": [
    "C96_is_closed",
    "C96_ends_meet",
    "C96_circle",
    "C96_zero_tolerance_refuted",
    "C96_same_point_double",
    "C96_tiny_tolerance_refuted",
    "C96_extrude_flags",
    "C96_revolve_flags",
    "C96_ruled_flags",
    "C96_torus",
    "C96_stale_flag_refuted"
   ],
   "note": "Exact over the reals; flags of extrusions, ruled surfaces and revolutions for any arithmetic; a torus mesh has every edge matched. False in general: with tolerance 0 (or, in doubles, a tolerance whose square underflows) no curve is closed, and the direction the extruder does not set keeps the flag the surface object had before (C96_stale_flag_refuted)."
  },
  {
   "property": "C97",
   "status": "partial",
   "theorems": [
    "C97_line_pixels",
    "C97_chain",
    "C97_end_point_refuted",
    "C97_one_pixel_refuted",
    "C97_drift_refuted"
   ],
   "note": "Every pixel of the result over the reals, for any rounding of depths, when the screen distance fits an int (beyond, C94_far_line_refuted). False as stated: the pixel of the second point is never painted, a one-pixel segment is not drawn, and in doubles the accumulated steps paint a wrong pixel."
  },
  {
   "property": "C98",
   "status": "partial",
   "theorems": [
    "C98_refuted",
    "C98_edge_query_refuted",
    "C98_never_a_neighbour",
    "C98_tin_kernel",
    "C98_half_edge_kernel"
   ],
   "note": "False for every mesh (C98_refuted): the linked kernel never records a neighbour, so the answer is always -1,-1,-1; the TIN kernel leaves the caller's variables as they were and the half-edge kernel always stops on an assertion. All answers are characterised."
  },
  {
   "property": "C99",
   "status": "proved",
   "theorems": [
    "C99_solid_points",
    "C99_solid_mesh",
    "C99_surface_mesh",
    "C99_polyline"
   ],
   "note": "Exact real arithmetic; segment counts within the int bounds of C63."
  },
  {
   "property": "C100",
   "status": "partial",
   "theorems": [
    "C100_mesh",
    "C100_number",
    "C100_close",
    "C100_order",
    "C100_six_digits_kept",
    "C100_second_trip",
    "C100_text_partial",
    "C100_text_refuted",
    "C100_distinct_refuted",
    "C100_words"
   ],
   "note": "False in four corners: two different coordinates can become equal (C100_distinct_refuted), numbers below 2^-1021 can be printed differently the second time (C100_text_refuted), an infinite or undefined z comes back as 0, and with an infinite or undefined x or y load reads uninitialised variables (both in C100_mesh). Everything else is proved for all doubles: the exact value read back, the error, the order, and that a second trip changes nothing. The stream library is assumed to round correctly both ways."
  },
  {
   "property": "C101",
   "status": "partial",
   "theorems": [
    "C101_real_partial",
    "C101_knots_refuted"
   ],
   "note": "False for every surface whose knots start at 0 (C101_knots_refuted): 0 and 1 are written without a decimal point, and exponents with a small e. The numbers that are written as a REAL are characterised exactly."
  },
  {
   "property": "C102",
   "status": "partial",
   "theorems": [
    "C102_angle_axis_degrees",
    "C102_euler_degrees",
    "C102_new_rotations",
    "C102_new_rotations_double",
    "C102_new_euler_refuted"
   ],
   "note": "False for RotationEulerAngles() (C102_new_euler_refuted): it mirrors the y axis. Everything else proved: matrix and quaternion turn by degrees within 1.15e-15 of the distance from the origin per degree (the conversion literal is not exactly pi/180), the Euler angles are degrees about y, x and z with a reflection between, and the other new rotations are neutral over the reals and in doubles."
  },
  {
   "property": "C103",
   "status": "proved",
   "theorems": [
    "C103_cylinder",
    "C103_sphere",
    "C103_torus",
    "C103_smooth",
    "C103_outwards",
    "C103_torus_outwards"
   ],
   "note": "Vertices and volumes within 3e-25 (relative) of the ideal values: the code uses 27 digits of pi. Over the reals. Outward winding is stated for n >= 1 (n = 0 gives flat solids), for cylinder and sphere as seen from the origin, for the torus as seen from the centre line of the tube."
  },
  {
   "property": "C104",
   "status": "proved",
   "theorems": [
    "C104_tessellate",
    "C104_merge",
    "C104_geodesic"
   ],
   "note": "Over the reals. For r = 0 the merge tolerance is 0 and nothing is merged, hence the hypothesis r <> 0."
  },
  {
   "property": "C105",
   "status": "proved",
   "theorems": [
    "C105_volume_error",
    "C105_surface_error",
    "C105_orientation",
    "C105_orientation_far_wrong"
   ],
   "note": "IEEE binary64 with rounding to nearest even; extended precision and fused operations (compiler options) are not modelled. Bounds are not claimed to be tight."
  },
  {
   "property": "C106",
   "status": "partial",
   "theorems": [
    "C106_dot_error",
    "C106_cross_error",
    "C106_norm_error",
    "C106_normalized_error",
    "C106_unit_length",
    "C106_normalized_refuted",
    "C106_plane_error"
   ],
   "note": "Everything stated is proved in the ranges given; that every non-null finite vector can be normalised is refuted (C106_normalized_refuted): 2^600 along x becomes the null vector, 2^-600 along x infinities and NaNs."
  },
  {
   "property": "C107",
   "status": "partial",
   "theorems": [
    "C107_integers",
    "C107_records",
    "C107_slashes_refuted",
    "C107_polygon_refuted"
   ],
   "note": "Proved for plain indices; faces with slashes are refuted (C107_slashes_refuted: undefined behaviour) and so are polygons (C107_polygon_refuted: a square becomes one triangle). How a number is read from its text is a parameter (num_text); C100 fixes it for doubles."
  },
  {
   "property": "C108",
   "status": "partial",
   "theorems": [
    "C108_document",
    "C108_one_solid_refuted"
   ],
   "note": "The text is proved exactly; that a solid stays one solid is refuted (C108_one_solid_refuted). How a number is written is a parameter; C100 fixes it for doubles."
  },
  {
   "property": "C109",
   "status": "proved",
   "theorems": [
    "C109_curve_error",
    "C109_surface_error",
    "C109_curve_unit_weights",
    "C109_surface_unit_weights"
   ],
   "note": "IEEE binary64 with rounding to nearest even; extended precision and fused operations are not modelled. The bound is not claimed to be tight. Outside the ranges given nothing is claimed (overflow)."
  },
  {
   "property": "C110",
   "status": "partial",
   "theorems": [
    "C110_curve_ends",
    "C110_surface_corners",
    "C110_built_curve",
    "C110_equal_weights_refuted"
   ],
   "note": "Proved for unit weights; for other equal weights refuted (C110_equal_weights_refuted): dividing by the weight does not undo the multiplication exactly. Signed zeros are not told apart."
  },
  {
   "property": "C111",
   "status": "proved",
   "theorems": [
    "C111_new_curve",
    "C111_new_surface",
    "C111_patch_setters",
    "C111_face_of_mesh",
    "C111_solid_of_mesh",
    "C111_new_face_solid",
    "C111_segment_length",
    "C111_new_plane"
   ],
   "note": "Segment lengths and plane distances over the reals; the rest for every number type."
  },
  {
   "property": "C112",
   "status": "partial",
   "theorems": [
    "C112_translation_error",
    "C112_there_and_back_partial",
    "C112_there_and_back_refuted",
    "C112_scale_error",
    "C112_euler_error",
    "C112_euler_distances",
    "C112_matrix_error",
    "C112_quaternion_error"
   ],
   "note": "Error bounds proved; that a translation there and back is exact is refuted (C112_there_and_back_refuted). The bounds take the accuracy of the stored entries as a parameter; C113 supplies it."
  },
  {
   "property": "C113",
   "status": "proved",
   "theorems": [
    "C113_euler_degrees",
    "C113_matrix_degrees",
    "C113_quaternion_degrees",
    "C113_any_axis"
   ],
   "note": "For every cosine and sine within 2^-53 of the exact ones up to arguments of 1024 (assumption on the C library; correctly rounded ones qualify) and angles up to 512 degrees."
  },
  {
   "property": "C114",
   "status": "proved",
   "theorems": [
    "C114_cylinder",
    "C114_sphere",
    "C114_torus",
    "C114_smooth",
    "C114_outwards",
    "C114_box",
    "C114_tetrahedron",
    "C114_octahedron"
   ],
   "note": "For every cosine and sine within 2^-53 of the exact ones up to arguments of 1024 (assumption on the C library; correctly rounded ones qualify)."
  },
  {
   "property": "C115",
   "status": "proved",
   "theorems": [
    "C115_stl",
    "C115_obj"
   ],
   "note": "Closed by position (vertices compared by coordinates); STL files do not keep vertex numbers."
  },
  {
   "property": "C116",
   "status": "proved",
   "theorems": [
    "C116_turned",
    "C116_euler",
    "C116_translated",
    "C116_scaled"
   ],
   "note": "For every cosine and sine within 2^-53 of the exact ones (assumption on the C library; correctly rounded ones qualify). That Euler angles mirror is the refuted part of C40."
  },
  {
   "property": "C117",
   "status": "proved",
   "theorems": [
    "C117_cylinder",
    "C117_sphere",
    "C117_torus",
    "C117_icosahedron",
    "C117_dodecahedron",
    "C117_doubles"
   ],
   "note": "Over the reals with the literal of pi of the source (the share tiny is its error); the doubles theorem for every cosine and sine within 2^-53 of the exact ones (assumption on the C library)."
  },
  {
   "property": "C118",
   "status": "proved",
   "theorems": [
    "C118_any_numbers",
    "C118_doubles",
    "C118_weld",
    "C118_stl"
   ],
   "note": "Real-number version is C22."
  },
  {
   "property": "C119",
   "status": "partial",
   "theorems": [
    "C119_remove_any_numbers",
    "C119_remove_doubles",
    "C119_tessellate_doubles",
    "C119_stays_closed_refuted",
    "C119_welded_partial"
   ],
   "note": "Removing and tessellating are proved in doubles with explicit bounds. That a closed surface stays closed is refuted in doubles: a unit corner cut in three parts along each side has cracks, since points on a shared side are computed from different corners. C119_welded_partial proves that merge_vertices closes them when the tolerance is above 2^(k-46) and different grid points are farther apart than the tolerance; without that separation merging may join different points."
  },
  {
   "property": "C120",
   "status": "partial",
   "theorems": [
    "C120_point",
    "C120_point_given",
    "C120_corners",
    "C120_add_to_mesh",
    "C120_sphere",
    "C120_edges_meet_refuted"
   ],
   "note": "Evaluation, corners, meshing and the sphere are proved in doubles with explicit bounds. That patches sharing an edge meet is refuted: on the grid of three segments 1 - 1/3 - 2/3 is not zero in doubles, so two octants of the unit sphere give points on opposite sides of their common plane (C120_edges_meet_refuted); by C120_add_to_mesh, both being near the same exact grid point, the gap of such grid points is at most 2^(k+j-i-43) in each coordinate."
  },
  {
   "property": "C121",
   "status": "partial",
   "theorems": [
    "C121_levels",
    "C121_mirror",
    "C121_set_refuted"
   ],
   "note": "Levels and symmetry are proved over the reals (the code uses float). That points of the set get the full level is refuted by -2, whose orbit stays in the closed disc of radius 2 but fails the strict test; its pixel is black."
  },
  {
   "property": "C122",
   "status": "partial",
   "theorems": [
    "C122_distance",
    "C122_cut",
    "C122_project",
    "C122_segment",
    "C122_segment_refuted",
    "C122_boxes",
    "C122_boxes_meet",
    "C122_apart"
   ],
   "note": "All bounds are proved. That every crossing with ends on different sides is found is refuted in doubles (C122_segment_refuted: distance 1 at coordinates 2^53 is rounded to 0); C122_segment proves it for ends farther than 2^(k-46) from the plane."
  },
  {
   "property": "C123",
   "status": "proved",
   "theorems": [
    "C123_screen_position",
    "C123_nearer_wins"
   ],
   "note": "Accuracy of the C library's cosine and sine is a hypothesis (good_trig); correct rounding satisfies it."
  },
  {
   "property": "C124",
   "status": "partial",
   "theorems": [
    "C124_coordinates",
    "C124_margins",
    "C124_doubles",
    "C124_above_refuted"
   ],
   "note": "Margins over the reals and bounds in doubles are proved. That the answer depends on the foot of the point alone is refuted (C124_above_refuted: of two points at the same height over inner points, one is accepted and one rejected); points on the line of the second and third corner are accepted in the plane too (C33)."
  },
  {
   "property": "C125",
   "status": "proved",
   "theorems": [
    "C125_control_points",
    "C125_tangent_planes"
   ],
   "note": "C125_tangent_planes gives the distance from the tangent plane times the length of the normal."
  }
 ]
}