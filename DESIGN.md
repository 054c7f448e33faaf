# Formal model of edeforas/CADTest — design

The C++ sources in /repo/src are modelled in Gallina, function by function, and the
properties of `properties.jsonl` are proved about that model with Rocq/Coq 8.16.1.

## 1. Shape of the development

`rocq/theories`:

| file | content |
|---|---|
| `Base.v` | fault monad (`res`), `std::vector` access with explicit out-of-bounds outcome, `for` loops |
| `Num.v` | class `Num T` of the operations the C++ performs on `double`, instance over `R` |
| `M*.v` | **models**: the C++ code, definition by definition, each with a `/repo` file:line citation; no proofs |
| `S*.v` | **specifications**: small independent definitions used to state properties (no use of model helpers beyond the data types) |
| `L*.v` | lemmas and proofs |
| `P*.v` | **property theorems only**: statement, `exact lemma`, `Print Assumptions`, and beside each theorem an `Example` meeting its hypotheses |

### Numbers
The model text is generic in a class `Num T`. It is instantiated with
* `R` — geometry theorems ("exact arithmetic"). Division by zero and square root of a negative number are *faults*, not totalised values.
* any `T` — structural theorems (ids, counts, topology, memory safety) are proved for every `Num T`, hence also for IEEE doubles including NaN/inf.
* Flocq `binary64` — theorems where rounding is the point (phase 6).

### Undefined behaviour
Every function returns `res A`; `assert` failures, out-of-bounds vector accesses, reads of uninitialised locals, division by zero (over R), out-of-range double→int conversions and loops that do not terminate have distinct `fault` values. `int` is modelled by unbounded `Z` unless stated at the definition.

### Aliasing
Where C++ aliasing matters (`m = m`, `m.add_mesh(m)`, kernel pointers) the model has a heap or an explicit aliased version.

## 2. Trusted base
* the Coq kernel (8.16.1), no kernel checks switched off, no plugin;
* the axioms printed by `Print Assumptions` under each theorem: either none ("Closed under the global context") or the standard library's real-number axioms (`ClassicalDedekindReals.sig_forall_dec`, `sig_not_dec`, `FunctionalExtensionality.functional_extensionality_dep`, and `Classical_Prop.classic` where a Flocq/standard library lemma uses it); the list per theorem is in section 5;
* the reading of the C++ text into Gallina (the citations make it checkable line by line).

## 3. Plan per property
Notation: (R) over exact reals, (∀T) for every numeric type, (F64) binary64.

| id | modelled by / proved how |
|---|---|
| C01–C03 | `MKernel.v`,`MMesh.v`; refinement to list-of-points/list-of-triples machine, invariant over operation sequences (∀T) |
| C04,C05,C07,C08 | `operator=`/`add_mesh` with and without aliasing; C05 and C08 are expected to be refuted (self-assignment empties the mesh, self-append never ends: fuel argument) |
| C06 | heap model of kernels, ownership invariant over programs; the "no leak" part is expected to be refuted |
| C09,C10,C12,C13 | direct computation on the refined lists + real algebra |
| C11 | expected refuted: `rotate` macro does not rotate |
| C14,C15 | simulation between kernels; half-edge kernel expected refuted |
| C16–C18 | sums over linked triangles; translation invariance via edge-balance (divergence argument) |
| C20,C21 | `is_closed` characterised exactly; expected refuted |
| C22–C25 | loop invariants; tessellation by induction over stripes |
| C19, C88 | explicit vertex and triangle lists of the fixed solids, measures and distances by ring identities in the golden ratio |
| C26–C28 | explicit vertex and triangle lists for every n (`MMeshFactory.v`); closedness by summing an antisymmetric edge function, which telescopes; trigonometric identities; C28 refuted for every n |
| C29–C37 | real algebra (`nra`/`field`), order-only reasoning for boxes (∀T with order axioms as hypotheses that R and non-NaN doubles satisfy) ; C32–C35 contain refuted parts |
| C38–C41 | trigonometric identities |
| C42–C55 | `MNurbs.v`, `MNurbsRace.v`; knot lemmas, de Boor invariants, blossoms for knot insertion; C53–C55 expected (partly) refuted; for C53 (and C57) the curves and surfaces that degree elevation keeps are characterised exactly (`PElev.v`). Double clauses (`PF64.v`): the span search uses comparisons only, so it is transferred from the reals through an order embedding of the doubles; knot scaling and the polyline parameter by Flocq's rounding lemmas; absence of faults in evaluate by a loop lemma about two runs (`LEvalT.v`), which also shows that the temporaries do not matter |
| C56–C65, C89 | `MNurbsSurface.v`, `MNurbsFactory.v`; tensor product of the curve results (de Boor rows then columns), homogeneous equality for refinement, rotation/segment identities for revolve/extrude/ruled, loop invariants for meshing (solids: the grids one after the other, `SSolid.v`; control nets: `SNetMesh.v`); C58, C64, C65 refuted in part |
| C66–C69 | `MBezier.v` (BezierUtil, QuadBezierTriangle, CubicBezierTriangles, SmoothMesh, SmoothMeshFactory); polynomial identities, weighted means and convex hulls, invariants over the rows of the grid for `add_to_mesh`, list equalities for the container; C67 and C69 refuted in part. `SmoothMesh::empty`, `CubicBezierTriangles::clear` and `add_to_mesh` are declared in the headers but have no code |
| C70–C74 | `MStream.v` (ifstream::read on a list of bytes), `MImage.v`, `MBmp.v`; every byte of reader and writer by loop invariants over rows; C72–C74 and parts of C70, C71 refuted. A read whose buffer is too small is a fault even if the file is shorter (stricter than C++). Signed overflow of the index and size computations is a fault (`iint`), so the positive theorems carry the exact size bounds (`addressable`, `storable`, `readable` in `SImage.v`) and beyond them the overflow is proved. Files that cannot be opened are not modelled |
| C75–C76 | STL files as byte lists (`MStl.v`), IEEE conversions from Flocq (`MF64.v`); round trip against byte positions (`SStl.v`), loader outcome for every byte string. C76 refuted for truncated files |
| C77, C78, C86 | OBJ files as lists of characters (`MText.v`: lines, istringstream extraction; `MObj.v`); how a double is printed and scanned is a parameter (`Class Text`; C100 has the instance for doubles), the theorems assume of it what `SObj.v` says (a number prints without newline, and the text read back gives the value `q` of `reads_as x q`). Round trip by invariants over the lines; `index - 1` is checked for overflow; C78 and C86 refuted, with the exact result of every history / the outcome of every text |
| C79, C87 | STEP files as lists of characters (`MStep.v`); names and references are found by scanning the text for '#' (`SStep.v`), so the theorems do not depend on how the writer counts. Hypothesis: no printed number contains '#' (`C79_doubles` has none). C87 refuted: rows of control points are written in the other direction |
| C80–C84 | `MRender.v` (Renderer, RendererCamera, RendererLight, Face, Solid). C80: invariant over all calls, generic in the arithmetic. C81: every filled draw is shown to paint a list of fragments that does not depend on the buffers; folding them is choosing the nearest. C82, C83 over the reals, with refutations computed in IEEE doubles. C84 refuted |
| C85 | `MUtil.v` (MeshBoolean), lemmas in `LBoolean.v` |
| C90–C92 | `MGeometry.v`, `MMesh.v` (split_triangle); specification `SGeom2.v`, lemmas `LGeom3.v`, `LSplitTri.v`: signed side of a triangle's plane, exact outcome of each branch; C90 and C92 refuted by rational witnesses |
| C93–C95 | `MRender.v`; specification `SRaster.v` (screen triangles as convex combinations of corners), lemmas `LRaster*.v`: a drawing call is a list of fragments, the set of pixels of a trapeze is given row by row by its two border lines, compared with the triangle; C93 refuted by an invariant (last row) and by two computed pictures |
| C96 | `MNurbs.v`, `MNurbsFactory.v`; lemmas `LClosed.v`, `LClosedF.v` (doubles): the closing test against the distance of the end points, flags by following the setters; the torus mesh through C63; refuted for tolerance 0 and for reused surface objects |
| C97 | `MRender.v` (draw_line); specification `SLine.v`, lemmas `LLine.v`, `LLine2.v`: loop invariant giving every pixel; the longer coordinate advances by exactly one, so no pixel is visited twice; refuted for the end point, single pixels and (computed in doubles) drift |
| C98 | `MKernel.v`, `MMesh.v`; lemmas `LNear.v`: no reachable mesh stores a neighbour; refuted by a quadrangle |
| C99 | `MNurbsSurface.v` (NurbsSolid), `MNurbs.v`; lemmas `LMoved.v`: the vertex grid of a moved surface is the moved grid (affine invariance of C56), and the two meshing loops commute with moving the mesh |
| C100, C101 | `MFormat.v`: the text of `<<` for a double (printf %.6g: six digits by exact integer division, ties to even, trailing zeros removed) and the value and failbit of `>>`. The code is the C++ library's, so this models its documented result (correct rounding both ways), not its source. `SFormat.v` states rounding with Flocq's `round` in radix 10 and radix 2 and the grammar of a STEP REAL; lemmas `LFormat.v` (digits), `LFormat2.v` (reading), `LFormat3.v` (one number), `LFormat4.v` (OBJ files), `LFormat5.v` (second trip, STEP), `LFormat6.v` (counterexamples) |
| C102 | `MTransform.v` (the constructors and `apply` of the four rotation classes). `SDegrees.v` states a turn by degrees with `PI` and Rodrigues' formula, and the distance allowed for the rounded conversion literal; `LPi.v` (26 digits of PI from Machin's formula), `LDegrees.v`, `LDegrees2.v` (doubles); theorems in `PDegrees.v` |
| C103 | `MMeshFactory.v`; specification `SRound.v` (equal parts of a turn with `PI`, volumes of the inscribed polyhedra); lemmas `LRound.v` (sums, vertex lookup), `LRound2.v` (volume = sum of wedges times a profile sum), `LRound3.v` (closed forms by telescoping; pi literal against `PI`), `LRound4.v` (distances, smooth limit), `LRound5.v` (winding); theorems in `PRound.v` |
| C104 | `MUtil.v`, `MMeshFactory.v`; specification `SMeasure.v` (closed by position, closed by number), `SUtil.v`; lemmas `LGeo1.v` (a surface is closed iff every antisymmetric function of two points sums to 0 over its edges; the sum over a cut triangle is the sum over its sides), `LGeo2.v` (merge), `LGeo3.v` (grid points with different weights are at least 1/(19 n) apart on the unit sphere: a plane of symmetry separates any two of the 20 faces, found by computation in whole combinations of 1 and the golden section), `LGeo4.v` (each grid point listed once), `LGeo5.v`; theorems in `PGeodesic.v` |
| C105, C106 | `MMeasure.v`, `MGeometry.v` at the doubles of `MF64.v`; specification `SErr.v` (the real number a double stands for, the real mesh a mesh of doubles stands for, "finite and within e of x"); lemmas `LErr1.v` (one operation: nearest rounding errs by at most 2^(j-54) below 2^j, by 2^-53 relatively plus 2^-1075; sums over the linked triangles for any scalar type), `LErr2.v` (six times the volume under a triangle), `LErr3.v` (length), `LErr4.v` (accumulation over the mesh: i times the largest term is a double, so partial sums stay below it), `LErr5.v` (products, unit vectors), `LErr6.v` (plane), examples `LErrEx.v`; theorems in `PErr.v`. C106 is partial: the unit vector of a very long or very short vector is refuted |
| C107 | `MObj.v`; specification `SObjIn.v` (lines as blanks, words and a rest; records; reading of records in order); lemmas `LObjIn.v`; theorems in `PObjIn.v`. Partial: slash indices and polygons are refuted |
| C108 | `MStep.v`; specification `SStepDoc.v` (entities, their text, the entities that describe a surface); lemmas `LStep5.v`; theorems in `PStepDoc.v`. Partial: one solid per face is refuted. The screen position of C83 is in `SCamera.v`, `LCamera.v`, `PCamera.v` |
| C109 | `MNurbs.v`, `MNurbsSurface.v` at doubles (`MF64.v`); specification `SErrN.v` (the curve the doubles stand for, ranges, error), `SNurbs.v`, `SSurface.v`; lemmas `LErr7.v` (one interpolation), `LErr8.v` (the de Boor loops in doubles beside those in reals), `LErr9.v`; theorems in `PErrN.v` |
| C110 | As C109; lemmas `LErr10.v`, `LErr11.v`; theorems in `PErrN.v`. Partial: other equal weights are refuted |
| C111 | Constructors, `clear` and setters of `MNurbs.v`, `MNurbsSurface.v`, `MBezier.v`, `MRender.v`, `MGeometry.v`; specification `SNew.v`; sequences of setter calls by induction on the last call; theorems in `PNew.v`. Lengths and planes over the reals |
| C112 | `MTransform.v` at `F64Num`; specification `SErrT.v`; forward error analysis in `LErrT.v`, distances from the Lipschitz bound of the norm; theorems in `PErrT.v`. How near the stored sines, cosines and matrix entries are to exact ones is a parameter d of the bounds (C113 supplies it). Partial: exact return is refuted |
| C113 | `MTransform.v` at `F64Num` for any `Trig f64` whose functions are within 2^-53 of the exact ones (`good_trig` in `SErrD.v`; the C library's functions are not modelled, the correctly rounded ones are shown to qualify). `LErrD.v`: double value of the conversion factor, error of the angle, of the entries and of the image; combined with C102 and C106; theorems in `PErrD.v` |
| C114 | `MMeshFactory.v`, `MMeasure.v`, `MUtil.v` at `F64Num` for any good `Trig f64` (see C113). `LErrR.v`: angles, vertices and volumes of meshes whose vertices are near exact ones; `LErrR2.v`: the solids, using the generic vertex lists of `LMeshFac2.v` and `LMeshFac3.v` and the exact volumes of C103; theorems in `PErrR.v` |
| C115 | `MStl.v`, `MObj.v`, `MFormat.v`, `MMeasure.v` at `F64Num`. `LErrF.v`: the loaded faces are the images of the saved ones under a rounding of points (C75, C100), volume and area of nearby faces, combined with C105; theorems in `PErrF.v` |
| C116 | `MTransform.v`, `MMesh.v` (`apply_transform`), `MMeasure.v` at `F64Num`. `LErrM.v`: faces near the exactly moved ones (C112, C113), whose measures are known over the reals (C17, C18), combined with C105; bounds `vol_err`, `area_err` in `SErrM.v`; theorems in `PErrM.v` |
| C117 | `MMeshFactory.v`, `MMeasure.v` at `RNum` and `F64Num`. `LArea.v`: area of each band of triangles from the chord lengths, summed; Heron's formula for the regular solids (`LArea2.v`); doubles from the vertex bounds of C114 and the summation bound of C105 (`LArea3.v`). Spec `SArea.v`; theorems in `PArea.v` |
| C118 | `MUtil.v` (`merge_vertices`), `MStl.v` at any `Num` and at `F64Num`. `LMergeG.v`: loop invariants of C22 for any number type; `LMergeD.v`: relative error of the computed squared distance, welding via edge sums, composition with the STL round trip of C115. Spec `SMerge.v`; theorems in `PMerge.v` |
| C119 | The generic loops of `remove_empty_triangles` and `tessellate` are followed in any arithmetic (`LCleanG`), then bounded in doubles by the error calculus (`LCleanD`); the cracks of `C119_stays_closed_refuted` are computed in binary64, and welding (`LCleanW`) goes through the ideal grid points, which agree along shared sides. Missing: closedness by position in doubles (false). |
| C120 | `qbt_eval` over binary64 is compared with the exact rational patch by the error calculus (`LPatch`, `LPatch2`): six products of three parameters and a weight, six scaled points, one quotient. `LPatch3` carries it through the loops of `add_to_mesh`, `LPatch4` to the eight octants of the sphere, using the real shell of C69. Missing: meeting along shared edges in doubles (false, computed witness). |
| C121 | `SMandel.v` defines the orbit over pairs of reals; the loop `mandel` is followed round by round (`LMandel`), and the level is unique, which gives the symmetry by conjugation. Simplified: real numbers for float. Missing: full level on the whole set (false at -2). |
| C122 | Rounding errors of distance, slope and interpolation are added up by the error calculus (`LPlaneD2`, `LPlaneD3`); the quotient of the crossing may overflow, which `LPlaneD` follows through the comparisons with infinities; the bound of the returned point uses that the parameter lies between 0 and 1 (`LPlaneD4`). Comparisons of finite doubles are exact, so boxes are those of the values (`LPlaneD5`). Missing: crossings closer to the plane than the bound (false). |
| C123 | The rotated offset is within 375 units of 2^(k-53) of the exact one (C113's bounds of stored sines and cosines, `LErrT`); the quotient by the depth is bounded with the exact quotient as a factor (`LCameraD.pixel_ap`); truncation of a value near an exact one (`trunc_ap`). |
| C124 | Barycentric weights and a height express every point (`over_exists`); the cross products become multiples of the area vector plus in-plane vectors of size h, whose products are the angles (`margins`, ring identities); the error calculus for cross products (`LErr2`) gives 1056 units of 2^(4k-53) for the two numbers compared with zero. Missing: independence of the height (false). |
| C125 | Forward error calculus in units of 2^(k-53) (`LErrT`), with a rule for division by a small integer (`LPn.aps_div`). |

## 4. What is not modelled
* `GeometryUtil::compute_random_axis` (depends on the C++ library's random engine), `GeometryNurbs.cpp` (stub), the sample programs and tests, commented-out code.
* Memory allocation failure.
* `int` overflow, except where `iint` is used in the model: image sizes and addresses, the bitmap reader and writer, OBJ indices, window size and differences of screen coordinates in the renderer, the grid size tested by `MeshUtil::create_from_z/grid`, the cell counts of `NurbsUtil::to_mesh`. Elsewhere `int` counters and indices are unbounded integers (they count elements held in memory).

## 5. Axioms used by each theorem

Output of `Print Assumptions` beneath each theorem. All of them are axioms of the Coq standard library: `sig_forall_dec` and `sig_not_dec` (`Coq.Reals.ClassicalDedekindReals`, the construction of the reals), `functional_extensionality_dep` (`Coq.Logic.FunctionalExtensionality`), `classic` (`Coq.Logic.Classical_Prop`, used by Flocq).

**No axioms** (130): C01_add_triangle, C01_add_vertex, C01_mesh_refines_lists, C02_triangles_have_vertices, C03_unlink_is_local, C03_unlink_is_permanent, C04_copy_is_faithful, C05_self_assignment_empties, C06_no_sharing_no_double_free, C06_one_leak_per_assignment, C07_add_mesh_appends, C08_self_append_diverges, C08_self_append_without_vertices, C09_flip_replaces_one_triangle, C107_integers, C107_polygon_refuted, C107_records, C107_slashes_refuted, C108_document, C108_one_solid_refuted, C10_split_boundary, C111_face_of_mesh, C111_new_curve, C111_new_face_solid, C111_new_surface, C111_patch_setters, C111_solid_of_mesh, C118_any_numbers, C119_remove_any_numbers, C12_add_pentagon, C12_add_quad, C12_quad_outline, C13_apply_transform, C14_kernels_agree, C15_half_edge_refuted, C15_half_edge_vertices, C15_linked_kernel_stores, C15_negative_index_refuted, C15_tin_kernel_stores, C20_reads_the_links, C26_fixed_solids_closed, C26_icosahedron_closed, C26_negative_count, C26_round_solids_closed, C28_sphere_torus, C28_two_repeats_refuted, C41_apply_all_is_pointwise, C53_false_means_unchanged_partial, C53_high_degrees_refused, C53_true_means_higher_degree_partial, C55_sequential_calls_partial, C57_elevation_refused, C58_clear_as_new_partial, C58_equal_weights_partial, C63_consistent, C63_fine_grid_refuted, C63_no_segments, C69_container, C69_self_refuted, C70_address_in_buffer, C70_addresses_disjoint, C70_convert_to_bw, C70_convert_to_bw_few_planes_refuted, C70_convert_to_bw_in_place_refuted, C70_large_image_refuted, C70_outside_asserts, C70_put_get, C70_resize, C70_resize_wraps_refuted, C70_shierpinsky, C70_to_double_square_partial, C70_to_double_wide_refuted, C71_file_layout, C71_large_image_refuted, C71_round_trip_32_partial, C71_zero_width_refuted, C72_odd_width_refuted, C72_round_trip_8_partial, C73_bottom_row_only_partial, C73_rows_lost_refuted, C74_large_header_refuted, C74_negative_height_refuted, C74_no_other_fault, C74_pixels, C74_reader_outcomes, C74_truncated_file_refuted, C75_round_trip, C76_any_bytes_partial, C76_complete_file, C76_truncated_refuted, C77_round_trip, C77_save_load, C78_after_polyline_refuted, C78_any_history, C78_indices_refuted, C78_polyline_last_partial, C79_few_knots_never_written, C79_multiplicities, C79_well_formed, C80_clear, C80_large_window, C80_new, C80_within_buffers, C81_clear_is_clean, C81_depth_never_decreases, C81_nearest_wins, C81_order_irrelevant_partial, C84_face_assign_refuted, C84_face_copy, C84_solid_add_face, C84_solid_assign_refuted, C84_solid_copy_refuted, C86_bad_index_refuted, C86_outcomes_partial, C86_overflow_index_refuted, C86_short_line_refuted, C87_rows_partial, C87_transposed_refuted, C93_last_row_refuted, C94_far_corners_refuted, C94_far_line_refuted, C95_mesh, C95_mesh_without_edges, C95_polyline, C96_extrude_flags, C96_revolve_flags, C96_ruled_flags, C98_half_edge_kernel, C98_never_a_neighbour, C98_tin_kernel.

**`sig_forall_dec`** (4): C14_nearness_refuted, C17_index_closed_is_closed, C67_grid, C79_valid.

**`sig_forall_dec`, `functional_extensionality_dep`** (2): C124_coordinates, C97_chain.

**`sig_forall_dec`, `sig_not_dec`, `functional_extensionality_dep`** (222): C05_refuted, C06_no_leak_refuted, C08_refuted, C09_flip_reverses_orientation, C102_new_euler_refuted, C102_new_rotations, C104_geodesic, C104_merge, C104_tessellate, C106_unit_length, C10_split_preserves_surface, C111_new_plane, C111_segment_length, C117_dodecahedron, C117_icosahedron, C11_refuted, C11_split_edge_opens, C121_levels, C121_mirror, C121_set_refuted, C124_above_refuted, C124_margins, C12_optim_picks_smaller_surface, C16_surface_is_sum_of_areas, C16_unlinked_triangles_do_not_count, C17_volume_translation_invariant, C18_mirror_negates_volume, C18_rotation_invariant, C18_scale_volume, C18_uniform_scale, C19_box, C19_octahedron, C19_tetrahedron, C20_is_clean_only_if_empty, C20_is_closed_only_if_empty, C20_refuted, C21_no_degenerated_exact, C22_merge_vertices_sound, C23_remove_empty_exact, C24_grid_cells_partial, C24_height_field_cells_partial, C24_height_field_faces_up_partial, C24_large_sizes_refuted, C24_size_mismatch_stops, C25_tessellation_keeps_shape, C25_tessellation_nonpositive, C27_geodesic, C27_on_surface, C29_collinear_points_divide_by_zero, C29_plane_through_three_points, C30_projection_is_nearest_point, C31_plane_segment_exact, C32_answer_partial, C32_line_never_written, C32_refuted, C33_contains_characterised, C33_contains_off_line_partial, C33_refuted, C34_complete_partial, C34_completeness_refuted, C34_exact_in_general_position_partial, C34_sound_partial, C34_soundness_refuted, C35_common_point_found_partial, C35_point_on_first_segment_partial, C35_refuted, C36_box_is_smallest, C36_box_order_independent, C36_empty_box_acts_as_origin, C36_intersect_exact, C37_point_algebra, C38_angle_axis_is_proper_rotation, C39_rotations_compose, C40_euler_is_an_improper_isometry, C40_refuted, C41_effect, C41_scales_form_a_group, C41_translations_form_a_group, C42_constant_knots_divide_by_zero, C42_set_knots_normalises_partial, C43_find_knot_span, C43_search_total, C44_built_curve_is_valid, C44_set_uniform_valid, C44_surface_uniform_u, C44_surface_uniform_v, C45_evaluate_never_faults, C46_end_points, C47_evaluate_is_nurbs_formula, C48_affine_invariance, C48_transforms_are_affine, C49_bounding_box, C49_convex_hull, C50_insert_knot_keeps_curve, C51_elevation_degree_1, C52_elevation_degree_2, C53_degree_0_destroyed, C53_degree_1_repeated_knot_destroyed, C53_division_by_zero, C53_elevation_honest_refuted, C53_honest_exactly_when, C53_lost_otherwise, C54_polyline_partial, C55_concurrent_evaluate_refuted, C56_affine, C56_bounding_box, C56_convex_hull, C56_corners, C56_evaluate_formula, C57_elevation_u_exactly_when, C57_elevation_u_lost, C57_elevation_u_partial, C57_elevation_v_exactly_when, C57_elevation_v_lost, C57_elevation_v_partial, C57_insert_knot_u, C57_insert_knot_v, C57_refuted, C58_clear_refuted, C58_equal_weights_refuted, C59_box, C59_circle, C59_cylinder, C59_solids, C59_sphere, C59_torus, C60_revolve_all_angles, C60_revolve_height_radius, C60_revolve_rotates, C61_extrude, C62_quad, C62_ruled, C63_closes_up_partial, C63_solid_to_mesh_partial, C63_to_mesh_partial, C64_from_z_partial, C64_from_z_refuted, C64_not_square_refuted, C64_symmetric_partial, C65_from_mesh_partial, C65_unlinked_refuted, C66_affine, C66_bernstein, C66_end_points, C66_partition_of_unity, C66_range, C67_add_to_mesh, C67_area_refuted, C67_corners, C67_edges, C67_eval, C67_flat, C67_hull, C67_no_segments, C67_transform, C67_triangle_count_refuted, C68_centre, C68_flat, C68_other_lengths, C68_tangent_planes, C69_add_to_mesh, C69_flat_solids, C69_sphere_corners, C69_sphere_near, C69_sphere_patches, C69_sphere_refuted, C69_triangulation_refuted, C70_mandelbrot, C70_scale, C81_lines_refuted, C82_ambient_light, C82_black_without_lights, C82_channels_partial, C82_diffuse_light, C82_light_order, C82_too_bright_refuted, C83_centre_line, C83_depth_zero_real, C83_distance_order, C83_first_column_wide, C83_image_axes, C83_in_front, C83_new_camera, C83_one_ray_one_pixel, C83_rigid, C83_screen_position, C85_bad_id_refuted, C85_refuted, C85_split_meshes_partial, C88_dodecahedron_regular, C88_icosahedron_regular, C89_control_net_mesh, C90_completeness_refuted, C90_exact_in_general_position_partial, C90_flat_triangle_divides_by_zero, C90_outcome, C90_soundness_refuted, C91_cut_exact, C92_assertion_refuted, C92_general_position_never_splits, C92_nothing_split_refuted, C92_outcomes_partial, C92_split_at_point, C92_surface_refuted, C93_filled_triangle_partial, C94_culled, C94_drawn, C96_circle, C96_ends_meet, C96_is_closed, C96_stale_flag_refuted, C96_torus, C96_zero_tolerance_refuted, C97_end_point_refuted, C97_line_pixels, C97_one_pixel_refuted, C98_edge_query_refuted, C98_refuted, C99_polyline, C99_solid_mesh, C99_solid_points, C99_surface_mesh.

**`sig_forall_dec`, `sig_not_dec`, `classic`, `functional_extensionality_dep`** (128): C100_close, C100_distinct_refuted, C100_mesh, C100_number, C100_order, C100_second_trip, C100_six_digits_kept, C100_text_partial, C100_text_refuted, C100_words, C101_knots_refuted, C101_real_partial, C102_angle_axis_degrees, C102_euler_degrees, C102_new_rotations_double, C103_cylinder, C103_outwards, C103_smooth, C103_sphere, C103_torus, C103_torus_outwards, C105_orientation, C105_orientation_far_wrong, C105_surface_error, C105_volume_error, C106_cross_error, C106_dot_error, C106_norm_error, C106_normalized_error, C106_normalized_refuted, C106_plane_error, C109_curve_error, C109_curve_unit_weights, C109_surface_error, C109_surface_unit_weights, C110_built_curve, C110_curve_ends, C110_equal_weights_refuted, C110_surface_corners, C112_euler_distances, C112_euler_error, C112_matrix_error, C112_quaternion_error, C112_scale_error, C112_there_and_back_partial, C112_there_and_back_refuted, C112_translation_error, C113_any_axis, C113_euler_degrees, C113_matrix_degrees, C113_quaternion_degrees, C114_box, C114_cylinder, C114_octahedron, C114_outwards, C114_smooth, C114_sphere, C114_tetrahedron, C114_torus, C115_obj, C115_stl, C116_euler, C116_scaled, C116_translated, C116_turned, C117_cylinder, C117_doubles, C117_sphere, C117_torus, C118_doubles, C118_stl, C118_weld, C119_remove_doubles, C119_stays_closed_refuted, C119_tessellate_doubles, C119_welded_partial, C120_add_to_mesh, C120_corners, C120_edges_meet_refuted, C120_point, C120_point_given, C120_sphere, C122_apart, C122_boxes, C122_boxes_meet, C122_cut, C122_distance, C122_project, C122_segment, C122_segment_refuted, C123_nearer_wins, C123_screen_position, C124_doubles, C125_control_points, C125_tangent_planes, C36_any_order_double, C36_intersect_double, C36_smallest_box_double, C42_never_nan_refuted, C42_overflow_gives_nan, C42_set_knots_double, C43_find_knot_span_double, C43_find_knot_span_nan, C44_built_curve_double, C44_built_surface_double, C44_set_uniform_double, C45_evaluate_double, C45_evaluate_nan, C54_polyline_double_partial, C54_reaches_the_end_refuted, C54_small_curves_double, C56_evaluate_double, C75_exact, C75_nearest_single, C75_round_trip_ieee, C75_second_trip, C79_doubles, C80_arithmetics, C81_arithmetics, C81_ties_refuted, C82_double_order_refuted, C83_depth_zero_double, C86_relative_index_refuted, C93_above_border_refuted, C93_left_border_refuted, C96_same_point_double, C96_tiny_tolerance_refuted, C97_drift_refuted.
