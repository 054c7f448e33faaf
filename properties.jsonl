{"id": "C01", "title": "Vertex and triangle ids are dense, stable and never alias", "statement": "After any history of Mesh calls that did not fault, add_vertex returns the previous nb_vertices, get_vertex of that id gives back exactly the stored point, no call other than set_vertex / apply_transform / clear changes an existing vertex, and add_triangle returns the previous nb_triangles and get_triangle_vertices of that id gives back the three ids. Equivalently, the mesh behaves as a list of points plus a list of (triple, linked flag).", "quantifier": "every finite sequence of Mesh operations with every argument, every numeric type (incl. IEEE doubles with NaN)", "why_tests_cant": "A test exercises one history; aliasing or id reuse appears only for particular interleavings of add/unlink/split/flip/clear.", "anchors": ["src/Mesh.cpp: Mesh::add_vertex, add_triangle, get_vertex, get_triangle_vertices, unlink_triangle", "src/MeshKernelLinkedTriangles.cpp"]}
{"id": "C02", "title": "Triangles never refer to missing vertices", "statement": "If triangles are only added with existing vertex ids, then after any sequence of Mesh calls every triangle id in [0,nb_triangles) has its three vertex ids in [0,nb_vertices), so reading any triangle as points never goes out of bounds.", "quantifier": "every reachable mesh state", "why_tests_cant": "Needs an invariant over all histories, including split, flip, add_mesh, merge and clear.", "anchors": ["src/Mesh.cpp: get_triangle, split_triangle_with_vertex, flip_triangle, add_mesh", "src/MeshKernelLinkedTriangles.cpp"]}
{"id": "C03", "title": "Unlinking is local and permanent", "statement": "unlink_triangle(i) marks only triangle i; every other triangle keeps its vertices and its linked status, no vertex changes, and no later call except clear or whole-mesh assignment ever makes triangle i linked again.", "quantifier": "every mesh, every triangle id, every later history", "why_tests_cant": "'Never again' is a statement about all continuations.", "anchors": ["src/Mesh.cpp: unlink_triangle, is_triangle_unlinked", "src/MeshKernelLinkedTriangles.cpp: unlink_triangle"]}
{"id": "C04", "title": "Copying a mesh gives the same surface", "statement": "Copy construction / assignment from a different mesh gives the same vertices (same ids), the same colour, and exactly the linked triangles of the source in order; the source is not modified.", "quantifier": "every source mesh, every previous content of the destination", "why_tests_cant": "Sources with arbitrary patterns of unlinked triangles are unbounded.", "anchors": ["src/Mesh.cpp: Mesh(const Mesh&), operator="]}
{"id": "C05", "title": "Self-assignment is harmless", "statement": "m = m leaves m unchanged.", "quantifier": "every mesh m", "why_tests_cant": "Only one aliasing pattern breaks it and test suites rarely contain m = m; refuting needs the exact aliasing semantics.", "anchors": ["src/Mesh.cpp: operator="]}
{"id": "C06", "title": "Meshes never share storage, no double free, no leak", "statement": "In any program that constructs, copy-constructs, assigns, appends to and destroys Mesh objects, no two live meshes share a kernel, mutation of one never changes another, nothing is freed twice, and all kernels are freed once all meshes are destroyed.", "quantifier": "every finite sequence of construct/copy/assign/mutate/destroy on any number of objects", "why_tests_cant": "Ownership holds or fails over histories and aliasing patterns.", "anchors": ["src/Mesh.cpp: Mesh(), Mesh(const Mesh&), ~Mesh, operator=, clear"]}
{"id": "C07", "title": "add_mesh appends the other mesh", "statement": "a.add_mesh(b) with b a different object keeps all vertices and triangles of a under the same ids, appends b's vertices and b's linked triangles with ids shifted by the old vertex count, and the call always finishes.", "quantifier": "every pair of meshes", "why_tests_cant": "Index arithmetic must be right for every size; appending to oneself must be considered too.", "anchors": ["src/Mesh.cpp: add_mesh"]}
{"id": "C08", "title": "Appending a mesh to itself terminates", "statement": "m.add_mesh(m) terminates and doubles the mesh.", "quantifier": "every mesh m", "why_tests_cant": "Non-termination cannot be observed by a terminating test.", "anchors": ["src/Mesh.cpp: add_mesh"]}
{"id": "C09", "title": "flip_triangle reverses one triangle only", "statement": "flip_triangle(i) replaces triangle i by the reversed triangle (opposite normal, same vertices, opposite signed volume) and leaves all others intact.", "quantifier": "every mesh and linked triangle id", "why_tests_cant": "Quantifies over all meshes and ids.", "anchors": ["src/Mesh.cpp: flip_triangle"]}
{"id": "C10", "title": "Splitting a triangle at a vertex preserves the surface", "statement": "split_triangle_with_vertex(i,p): afterwards triangle i is unlinked and exactly three new triangles are linked whose signed volume equals the old triangle's volume plus the tetrahedron error that vanishes when p is in the plane of the triangle, whose area equals the old area when p is inside the triangle, and whose outer boundary edges are the old ones, so a closed mesh stays closed.", "quantifier": "every mesh, triangle id, point", "why_tests_cant": "Real-number geometry over all points; closedness over all meshes.", "anchors": ["src/Mesh.cpp: split_triangle_with_vertex"]}
{"id": "C11", "title": "Splitting an edge preserves the surface", "statement": "split_edge_with_vertex(t1,t2,v1,v2,vs) on two triangles sharing the edge v1-v2 yields four triangles covering the two old ones with the same orientation, keeping a closed mesh closed.", "quantifier": "every mesh, every pair of adjacent triangles", "why_tests_cant": "Depends on which of the three rotations the shared edge has in each triangle; the code path is only hit by particular vertex orders.", "anchors": ["src/Mesh.cpp: split_edge_with_vertex, macro rotate"]}
{"id": "C12", "title": "add_quad covers the quad and picks the smaller diagonal split", "statement": "add_quad(p1..p4) adds exactly two triangles with boundary p1p2,p2p3,p3p4,p4p1, both oriented like p1p2p3p4; with bOptimSurface the total area is the minimum over both diagonals.", "quantifier": "every four points / vertex ids", "why_tests_cant": "All real configurations.", "anchors": ["src/Mesh.cpp: add_quad, add_pentagon"]}
{"id": "C13", "title": "apply_transform moves vertices and nothing else", "statement": "apply_transform(t) replaces every vertex v by t(v), keeping counts, triangles, links and colour.", "quantifier": "every mesh and transform", "why_tests_cant": "All meshes.", "anchors": ["src/Mesh.cpp: apply_transform"]}
{"id": "C14", "title": "The two triangle kernels are interchangeable", "statement": "The TIN kernel and the linked-triangles kernel give the same answers to every sequence of vertex/triangle calls.", "quantifier": "every history of kernel calls", "why_tests_cant": "Observational equivalence ranges over all histories.", "anchors": ["src/MeshKernelTIN.cpp", "src/MeshKernelLinkedTriangles.cpp"]}
{"id": "C15", "title": "A kernel stores the triangles it is given", "statement": "For every kernel, add_triangle increases nb_triangles by one and the triangle can be read back (half-edge kernel included).", "quantifier": "every kernel, every history", "why_tests_cant": "Refutation needs the exact semantics of the stubbed kernel on an empty store.", "anchors": ["src/MeshKernelHalfEdge.cpp: add_triangle"]}
{"id": "C16", "title": "Surface is non-negative and additive", "statement": "surface(m) is the sum of the areas of the linked triangles, is >= 0, is 0 for an empty mesh, and surface after a.add_mesh(b) is surface(a)+surface(b); unlinked triangles never count.", "quantifier": "every mesh", "why_tests_cant": "All meshes, incl. unlinked patterns.", "anchors": ["src/MeshMeasurements.cpp: surface"]}
{"id": "C17", "title": "Volume of a closed mesh does not depend on where it stands", "statement": "If every directed edge is used as often as its reverse, volume(m) is unchanged by every translation.", "quantifier": "every edge-balanced mesh, every translation vector", "why_tests_cant": "Divergence-theorem argument over all closed meshes; not decidable by sampling.", "anchors": ["src/MeshMeasurements.cpp: volume", "src/Mesh.cpp: apply_transform", "src/Transform.cpp: Translation"]}
{"id": "C18", "title": "Volume and surface are rotation invariant and scale correctly", "statement": "For every rotation about a unit axis and every mesh, volume and surface are unchanged; uniform scaling by k multiplies volume by k^3 and surface by k^2; mirroring negates the volume.", "quantifier": "every mesh, angle, unit axis, scale factor", "why_tests_cant": "Infinite families of reals.", "anchors": ["src/MeshMeasurements.cpp", "src/Transform.cpp"]}
{"id": "C19", "title": "Boxes and tetrahedra have their textbook measures", "statement": "create_box(x,y,z) has volume x*y*z and surface 2(xy+yz+zx); create_tetrahedron and create_octahedron give the right volume for every size; bounding boxes match.", "quantifier": "all real sizes", "why_tests_cant": "All sizes, sign cases included.", "anchors": ["src/MeshFactory.cpp: create_box, create_tetrahedron, create_octahedron", "src/MeshMeasurements.cpp"]}
{"id": "C20", "title": "is_closed recognises closed meshes", "statement": "is_closed(m) returns true for a closed mesh (each directed edge matched by its reverse) such as the factory box, and false otherwise.", "quantifier": "every mesh", "why_tests_cant": "The function's answer must be characterised for every reachable mesh; the neighbour links are never filled.", "anchors": ["src/MeshMeasurements.cpp: is_closed, is_clean", "src/MeshKernelLinkedTriangles.cpp: add_triangle, get_near_triangles"]}
{"id": "C21", "title": "has_no_degenerated is exact", "statement": "has_no_degenerated(m) holds iff no linked triangle has zero area (below tolerance).", "quantifier": "every mesh", "why_tests_cant": "All meshes.", "anchors": ["src/MeshMeasurements.cpp"]}
{"id": "C22", "title": "merge_vertices is sound", "statement": "After merge_vertices(m,tol): each linked triangle of the old mesh corresponds, in order, to one triangle whose corners are each within tol of the old ones, remaining vertices are pairwise at distance >= tol, no vertex is invented, and vertices not within tol of another are kept exactly.", "quantifier": "every mesh, every tolerance", "why_tests_cant": "Merging is order dependent and non-transitive; needs a loop invariant.", "anchors": ["src/MeshUtil.cpp: merge_vertices"]}
{"id": "C23", "title": "remove_empty_triangles removes exactly the empty ones", "statement": "After remove_empty_triangles(m,tol) the linked triangles are exactly those previously linked whose corners are pairwise farther than tol; vertices are unchanged.", "quantifier": "every mesh, tolerance", "why_tests_cant": "All meshes.", "anchors": ["src/MeshUtil.cpp: remove_empty_triangles"]}
{"id": "C24", "title": "Height-field meshes index every cell correctly", "statement": "create_from_z / create_from_grid with sizes X,Y and X*Y values give X*Y vertices in row order and 2(X-1)(Y-1) triangles, two per cell with consistent orientation; a sampled height is reproduced at its grid point.", "quantifier": "all X,Y >= 1 and all heights", "why_tests_cant": "Rectangular sizes and all indices.", "anchors": ["src/MeshUtil.cpp: create_from_z, create_from_grid"]}
{"id": "C25", "title": "Tessellation keeps shape", "statement": "MeshTessellate.compute(m,n) produces n^2 triangles per linked triangle with the same orientation, area and signed volume as the original, for every n >= 1.", "quantifier": "every mesh, every n >= 1", "why_tests_cant": "Induction over n with real sums.", "anchors": ["src/MeshTessellate.cpp"]}
{"id": "C26", "title": "Factory solids are closed", "statement": "Every create_* solid (box, tetrahedron, octahedron, icosahedron, dodecahedron, sphere_uv, torus, cylinder) is combinatorially closed and consistently oriented: each directed edge occurs as often as its reverse, for every segment count for which the call succeeds.", "quantifier": "all sizes and all segment counts n", "why_tests_cant": "Unbounded n with modular index arithmetic.", "anchors": ["src/MeshFactory.cpp"]}
{"id": "C27", "title": "Factory spheres and tori lie on their surface", "statement": "All vertices of create_sphere_uv(r,n) and create_sphere_geodesic(r,n) are at distance r from the origin, all vertices of create_torus satisfy the torus equation, cylinder vertices lie on the cylinder.", "quantifier": "all radii, all n", "why_tests_cant": "Trigonometric identities over all reals and n.", "anchors": ["src/MeshFactory.cpp: create_sphere_uv, create_sphere_geodesic, create_torus, create_cylinder"]}
{"id": "C28", "title": "Factory cylinder has no degenerate triangle", "statement": "create_cylinder(h,r,n) with h,r>0 and n>=3 contains no triangle with a repeated vertex.", "quantifier": "all n>=3", "why_tests_cant": "Off-by-one at the wrap-around index for each n.", "anchors": ["src/MeshFactory.cpp: create_cylinder"]}
{"id": "C29", "title": "Plane through three points", "statement": "Plane3(a,b,c) of three non-collinear points has a unit normal, is at distance 0 from each of the three points, and distance_to is the signed Euclidean distance.", "quantifier": "all non-collinear triples", "why_tests_cant": "Real algebra over all triples.", "anchors": ["src/Geometry.cpp: Plane3"]}
{"id": "C30", "title": "Projection onto a plane", "statement": "project_point lands on the plane, is idempotent, leaves points of the plane fixed and gives the nearest point of the plane.", "quantifier": "all points, all unit-normal planes", "why_tests_cant": "Minimality over all points.", "anchors": ["src/Geometry.cpp: Plane3::project_point"]}
{"id": "C31", "title": "Plane / segment intersection is exact", "statement": "intersect_with(segment) returns true only with a point on both plane and segment, and returns true whenever the endpoints are strictly on opposite sides.", "quantifier": "all planes, all segments", "why_tests_cant": "Completeness over all inputs.", "anchors": ["src/Geometry.cpp: Plane3::intersect_with(Segment3)"]}
{"id": "C32", "title": "Plane / plane intersection returns the line", "statement": "If Plane3::intersect_with(plane,line) returns true then the line lies in both planes.", "quantifier": "all pairs of planes", "why_tests_cant": "The output argument must be characterised for all inputs.", "anchors": ["src/Geometry.cpp: Plane3::intersect_with(Plane3)"]}
{"id": "C33", "title": "Triangle3::contains is exact", "statement": "Triangle3::contains(p) for p in the triangle's plane returns true exactly when p is a convex combination of the corners.", "quantifier": "all triangles, all coplanar points", "why_tests_cant": "Boundary lines have measure zero; random tests never hit them.", "anchors": ["src/Geometry.cpp: Triangle3::contains"]}
{"id": "C34", "title": "Triangle / triangle intersection is sound and complete", "statement": "Triangle3::intersect_with returns true exactly when the triangles share a point.", "quantifier": "all pairs of triangles", "why_tests_cant": "Two-sided claim over a 18-dimensional input space.", "anchors": ["src/Geometry.cpp: Triangle3::intersect_with"]}
{"id": "C35", "title": "Segment / segment intersection is sound", "statement": "Segment3::intersect returning true gives a point lying on both segments.", "quantifier": "all pairs of segments", "why_tests_cant": "Skew and out-of-range pairs.", "anchors": ["src/Geometry.cpp: Segment3::intersect"]}
{"id": "C36", "title": "Bounding boxes", "statement": "A BoundingBox3 built by add() contains exactly the smallest axis-aligned box of the points added, independent of order; boxes reported disjoint share no point and vice versa; intersect is symmetric; valid even for IEEE doubles without NaN.", "quantifier": "every finite list of points, every pair of boxes", "why_tests_cant": "All lists and orders.", "anchors": ["src/Geometry.cpp: BoundingBox3"]}
{"id": "C37", "title": "Point algebra", "statement": "cross product is orthogonal to both factors, Lagrange identity holds, norm is a norm, normalized() has norm 1 for non-zero points and divides by zero only for the zero point, the norm obeys the triangle inequality.", "quantifier": "all points", "why_tests_cant": "All reals.", "anchors": ["src/Geometry.h", "src/Geometry.cpp: Point3"]}
{"id": "C38", "title": "Angle-axis rotations are proper rotations", "statement": "RotationMatrix/RotationQuaternion::from_angle_axis(a,u) with |u|=1 preserves all distances and orientation, fixes the axis, and the matrix and quaternion versions agree on every point.", "quantifier": "all angles, unit axes, points", "why_tests_cant": "Trigonometric identities over reals.", "anchors": ["src/Transform.cpp: RotationQuaternion, RotationMatrix"]}
{"id": "C39", "title": "Rotations compose", "statement": "Rotating by a then by b about one unit axis equals rotating by a+b; rotating by -a undoes a; angle 0 is the identity.", "quantifier": "all a,b, unit axes, points", "why_tests_cant": "All reals.", "anchors": ["src/Transform.cpp"]}
{"id": "C40", "title": "Euler rotation is a proper rotation", "statement": "RotationEulerAngles preserves distances and orientation and is the identity for zero angles.", "quantifier": "all angles, points", "why_tests_cant": "Claim over all angles; its failure is a reflection hidden in the pitch formula.", "anchors": ["src/Transform.cpp: RotationEulerAngles"]}
{"id": "C41", "title": "Translations and scales form groups", "statement": "Translation(u) then Translation(v) is Translation(u+v); Scale composes multiplicatively; apply_all applies the transform to each point, keeping order and count.", "quantifier": "all vectors, factors, point lists", "why_tests_cant": "All reals and lists.", "anchors": ["src/Transform.cpp: Translation, Scale, apply_all"]}
{"id": "C42", "title": "Knot scaling normalises", "statement": "NurbsCurve::set_knots on a sorted non-constant knot vector gives a sorted vector of the same length from 0 to 1 (affine image), is idempotent, and never produces NaN; the range and order hold for IEEE doubles as well.", "quantifier": "every sorted non-constant knot vector", "why_tests_cant": "All vectors.", "anchors": ["src/NurbsCurve.cpp: set_knots, scale_knots"]}
{"id": "C43", "title": "Knot span search is correct for every parameter", "statement": "find_knot_span(knots,t) always terminates in bounds and for t in the domain returns i with knots[i] <= t <= knots[i+1], knots[i] < knots[i+1]; outside it returns the first/last non-empty span.", "quantifier": "every sorted knot vector, every t", "why_tests_cant": "All vectors with arbitrary multiplicities.", "anchors": ["src/NurbsCurve.cpp: find_knot_span"]}
{"id": "C44", "title": "Uniform knots are valid", "statement": "set_uniform on a curve with more points than its degree yields a clamped, sorted knot vector with nb_points+degree+1 entries.", "quantifier": "all degrees and point counts", "why_tests_cant": "Unbounded sizes.", "anchors": ["src/NurbsCurve.cpp: set_uniform", "src/NurbsSurface.cpp: set_uniform_u, set_uniform_v"]}
{"id": "C45", "title": "Evaluation never faults on a valid curve", "statement": "evaluate(t,p) on a valid clamped curve with positive weights reads and writes only in bounds and never divides by zero, for every real t in [0,1].", "quantifier": "every valid curve of any degree, every t in [0,1]", "why_tests_cant": "Bounds and denominators for all knot multiplicities.", "anchors": ["src/NurbsCurve.cpp: evaluate"]}
{"id": "C46", "title": "Curves interpolate their end points", "statement": "evaluate(0) is the first control point and evaluate(1) the last, for every valid clamped curve of any degree.", "quantifier": "every valid curve", "why_tests_cant": "All degrees and knots.", "anchors": ["src/NurbsCurve.cpp: evaluate"]}
{"id": "C47", "title": "Evaluation is the NURBS formula", "statement": "evaluate(t) equals sum N_i,p(t) w_i P_i / sum N_i,p(t) w_i with N the Cox-de Boor basis.", "quantifier": "every valid curve, every t in [0,1]", "why_tests_cant": "de Boor's algorithm equals the basis definition only by induction on the degree.", "anchors": ["src/NurbsCurve.cpp: evaluate"]}
{"id": "C48", "title": "Affine invariance of curves", "statement": "Transforming the control points by a translation, scale or rotation transforms every curve point the same way.", "quantifier": "every valid curve, t, affine map", "why_tests_cant": "All reals.", "anchors": ["src/NurbsCurve.cpp: evaluate", "src/Transform.cpp"]}
{"id": "C49", "title": "Convex hull property", "statement": "With positive weights every curve point satisfies every linear inequality satisfied by all control points (in particular lies in their bounding box).", "quantifier": "every valid curve, t in [0,1], half-space", "why_tests_cant": "All half-spaces.", "anchors": ["src/NurbsCurve.cpp: evaluate"]}
{"id": "C50", "title": "Knot insertion does not change the curve", "statement": "insert_knot(u) for u in the domain adds one control point and one knot and leaves evaluate(t) unchanged for every t in [0,1].", "quantifier": "every valid curve of any degree, u, t", "why_tests_cant": "Boehm's identity for all degrees and knot positions; tests sample a few t.", "anchors": ["src/NurbsCurve.cpp: insert_knot"]}
{"id": "C51", "title": "Degree elevation does not change the curve (degree 1)", "statement": "degree_elevation on a valid degree-1 curve returns a valid degree-2 curve with the same evaluate(t) for every t.", "quantifier": "every valid degree 1 curve, every t", "why_tests_cant": "All sizes.", "anchors": ["src/NurbsCurve.cpp: degree_elevation"]}
{"id": "C52", "title": "Degree elevation does not change the curve (degree 2)", "statement": "degree_elevation on a valid degree-2 curve returns a valid degree-3 curve with the same evaluate(t) for every t.", "quantifier": "every valid degree 2 curve, every t", "why_tests_cant": "All sizes, multiplicities.", "anchors": ["src/NurbsCurve.cpp: degree_elevation"]}
{"id": "C53", "title": "Degree elevation reports failure honestly", "statement": "degree_elevation returns true only if the curve now has a higher degree and the same shape, and false leaves the curve unchanged, for every degree and knot vector accepted by the setters.", "quantifier": "every curve", "why_tests_cant": "Corner degrees (0, >=3) and repeated knots.", "anchors": ["src/NurbsCurve.cpp: degree_elevation", "src/NurbsSurface.cpp: degree_elevation_u, degree_elevation_v"]}
{"id": "C54", "title": "Polyline sampling covers the curve", "statement": "to_polyline returns points of the curve, starting at the first and ending at the last control point, for every curve size, in double arithmetic.", "quantifier": "every curve size n", "why_tests_cant": "Accumulated rounding in the loop counter depends on n.", "anchors": ["src/NurbsCurve.cpp: to_polyline"]}
{"id": "C55", "title": "Concurrent const evaluation", "statement": "Two evaluate calls on the same const curve from two threads return the same results as sequential calls.", "quantifier": "every interleaving of the two calls", "why_tests_cant": "Race schedules.", "anchors": ["src/NurbsCurve.h: _tempPoints, _tempWeights", "src/NurbsCurve.cpp: evaluate"]}
{"id": "C56", "title": "Surface evaluation: corners, hull, affine invariance", "statement": "NurbsSurface::evaluate never faults on a valid surface for (u,v) in [0,1]^2, interpolates the four corner control points, satisfies the convex hull property and commutes with affine maps.", "quantifier": "every valid surface, (u,v)", "why_tests_cant": "All degrees/sizes.", "anchors": ["src/NurbsSurface.cpp: evaluate"]}
{"id": "C57", "title": "Surface refinement keeps the surface", "statement": "insert_knot_u/v and degree_elevation_u/v leave evaluate(u,v) unchanged everywhere.", "quantifier": "every valid surface, (u,v)", "why_tests_cant": "All degrees/sizes.", "anchors": ["src/NurbsSurface.cpp: insert_knot_u, insert_knot_v, degree_elevation_u, degree_elevation_v"]}
{"id": "C58", "title": "Reset really resets", "statement": "After clear(), a NurbsSurface behaves like a newly constructed one; set_equals_weights makes all weights equal.", "quantifier": "every previous history of the object", "why_tests_cant": "Stale state depends on history.", "anchors": ["src/NurbsSurface.cpp: clear, set_equals_weights, set_closed_u"]}
{"id": "C59", "title": "NURBS circle, sphere, torus, cylinder are exact", "statement": "Every point of NurbsFactory create_circle/sphere/torus/cylinder satisfies the implicit equation of the shape exactly (over the reals).", "quantifier": "all radii, all parameters", "why_tests_cant": "All parameters, not samples.", "anchors": ["src/NurbsFactory.cpp", "src/NurbsRevolve.cpp"]}
{"id": "C60", "title": "Revolution", "statement": "NurbsRevolve: each point S(u,v) of the surface has the same height as the profile point C(v) and the same distance to the axis, for every profile.", "quantifier": "every valid profile curve, all (u,v)", "why_tests_cant": "All profiles.", "anchors": ["src/NurbsRevolve.cpp: revolve"]}
{"id": "C61", "title": "Extrusion", "statement": "NurbsExtrude: S(u,v) = C(u) + v*dir.", "quantifier": "every valid profile, direction, (u,v)", "why_tests_cant": "All.", "anchors": ["src/NurbsExtrude.cpp: extrude"]}
{"id": "C62", "title": "Ruled surface", "statement": "NurbsRuled: S(u,0)=C1(u), S(u,1)=C2(u) and S(u,.) is the straight segment between, for curves of equal degree/knots.", "quantifier": "all compatible valid curve pairs", "why_tests_cant": "All.", "anchors": ["src/NurbsRuled.cpp: create_ruled"]}
{"id": "C63", "title": "NURBS meshing", "statement": "NurbsUtil::to_mesh with n segments creates in-range triangles, the expected counts, every vertex on the surface, neighbours connected, and closes up over closed directions.", "quantifier": "every surface, n", "why_tests_cant": "All n and sizes.", "anchors": ["src/NurbsUtil.cpp: to_mesh"]}
{"id": "C64", "title": "NURBS height-fields", "statement": "NurbsUtil::create_from_z(z,X,Y,d) places z[x+y*X] at grid position (x,y) for all X,Y (also non-square).", "quantifier": "all X,Y", "why_tests_cant": "Only non-square sizes fail.", "anchors": ["src/NurbsUtil.cpp: create_from_z"]}
{"id": "C65", "title": "Meshes to NURBS", "statement": "NurbsUtil::create_from_mesh makes one flat patch per linked triangle, interpolating its corners; unlinked triangles are ignored.", "quantifier": "every mesh", "why_tests_cant": "All meshes.", "anchors": ["src/NurbsUtil.cpp: create_from_mesh", "src/NurbsFactory.cpp: create_triangle"]}
{"id": "C66", "title": "Bezier helpers are a partition of unity", "statement": "Bernstein evaluation reproduces end points and affine maps, and the weights are non-negative and sum to 1.", "quantifier": "all parameters in [0,1], all control points", "why_tests_cant": "All reals.", "anchors": ["src/BezierUtil.cpp"]}
{"id": "C67", "title": "Quadratic Bezier triangle", "statement": "eval interpolates the corners and the boundary Bezier curves; with mid-edge control points and equal weights it is the barycentric map; add_to_mesh with n segments covers the patch with n^2 triangles whose indices are in range.", "quantifier": "all control nets, n", "why_tests_cant": "All n.", "anchors": ["src/QuadBezierTriangle.cpp"]}
{"id": "C68", "title": "PN-triangle control points lie in tangent planes", "statement": "CubicBezierTriangles::set_normals puts the edge control points in the tangent plane of the adjacent corner for unit normals.", "quantifier": "all triangles and unit normals", "why_tests_cant": "All reals.", "anchors": ["src/CubicBezierTriangles.cpp: set_normals"]}
{"id": "C69", "title": "SmoothMesh container and factory", "statement": "SmoothMesh copy / add_mesh / apply_transform keep all patches; factory solids interpolate their corners; create_sphere's patches lie on the sphere.", "quantifier": "all sizes, patches", "why_tests_cant": "All parameters.", "anchors": ["src/SmoothMesh.cpp", "src/SmoothMeshFactory.cpp"]}
{"id": "C70", "title": "Image addressing", "statement": "For a w x h image with b bytes per pixel, pixel addresses are inside the buffer and pairwise disjoint, and conversions between image kinds touch only in-bounds bytes.", "quantifier": "all w,h,bpp and coordinates", "why_tests_cant": "All sizes; the overflow needs w>h.", "anchors": ["src/Image.h", "src/ImageUtil.cpp"]}
{"id": "C71", "title": "BMP 32-bit round trip", "statement": "Writing a 4-byte-per-pixel image and reading it back yields an image with the same size and the same RGB of each pixel.", "quantifier": "every image", "why_tests_cant": "All sizes and contents.", "anchors": ["src/ImageIoBmp.cpp"]}
{"id": "C72", "title": "BMP 8-bit round trip", "statement": "Writing and reading back an 8-bit image yields the same pixels for every width.", "quantifier": "every image", "why_tests_cant": "Padding depends on width mod 4.", "anchors": ["src/ImageIoBmp.cpp"]}
{"id": "C73", "title": "BMP 24-bit files load", "statement": "A well formed 24-bit BMP file loads with all its rows.", "quantifier": "every well formed file", "why_tests_cant": "Padding arithmetic for all widths.", "anchors": ["src/ImageIoBmp.cpp"]}
{"id": "C74", "title": "BMP reader is total", "statement": "read() on any byte string either fails cleanly or returns a well-formed image; it never reads outside the buffers and headers are never misread.", "quantifier": "every byte string", "why_tests_cant": "All malformed files.", "anchors": ["src/ImageIoBmp.cpp: read"]}
{"id": "C75", "title": "STL round trip", "statement": "STLFile::save then load yields the linked triangles in order with coordinates rounded to single precision (exact if representable), and the file has 84+50n bytes.", "quantifier": "every mesh", "why_tests_cant": "All doubles.", "anchors": ["src/STLFile.cpp"]}
{"id": "C76", "title": "STL loader is total", "statement": "STLFile::load on any byte string never reads garbage: it returns true only if all announced triangles were read.", "quantifier": "every byte string", "why_tests_cant": "All truncations.", "anchors": ["src/STLFile.cpp: load"]}
{"id": "C77", "title": "OBJ round trip", "statement": "OBJFile::save then load yields the same mesh topology (linked triangles in order); several meshes written in one file keep their own indices.", "quantifier": "every list of meshes", "why_tests_cant": "All sizes, index offsets.", "anchors": ["src/OBJFile.cpp"]}
{"id": "C78", "title": "OBJ polylines", "statement": "Polylines written to an OBJ file refer to their own vertices with valid 1-based indices, and vertices written after a polyline are still parsed.", "quantifier": "every history of writes", "why_tests_cant": "Depends on the order of writes.", "anchors": ["src/OBJFile.cpp: write(polyline)"]}
{"id": "C79", "title": "STEP files are well-formed", "statement": "Every entity id in a written STEP file is unique and increasing, every #reference refers to an entity defined in the same file, and knot multiplicities sum to the number of knots.", "quantifier": "every solid", "why_tests_cant": "All sizes.", "anchors": ["src/StepFile.cpp"]}
{"id": "C80", "title": "Rendering never writes outside the image", "statement": "Every draw call with any coordinates writes only inside the width*height colour and depth buffers, and clear() resets all pixels.", "quantifier": "all coordinates, all meshes, all cameras", "why_tests_cant": "All real inputs incl. off screen.", "anchors": ["src/Renderer.cpp"]}
{"id": "C81", "title": "Depth buffer is monotone", "statement": "Between two clear() calls the depth stored for a pixel never increases/decreases against the nearest-wins rule, so the final image does not depend on draw order of filled triangles.", "quantifier": "every sequence of draws", "why_tests_cant": "All histories.", "anchors": ["src/Renderer.cpp: draw_pixel, draw_horizontal_line, draw_line"]}
{"id": "C82", "title": "Shading stays in range", "statement": "compute_color_with_lights yields channels in [0,255] for non-negative light factors and black without lights; light order does not matter.", "quantifier": "all colours, normals, light lists", "why_tests_cant": "All lists and reals.", "anchors": ["src/Renderer.cpp: compute_color_with_lights", "src/RendererLight.cpp"]}
{"id": "C83", "title": "Camera projection", "statement": "The camera's projection keeps points in front of it in front, maps its centre line to the image centre and is consistent with distance ordering.", "quantifier": "all cameras, points", "why_tests_cant": "All reals.", "anchors": ["src/RendererCamera.cpp"]}
{"id": "C84", "title": "Face/Solid assignment copies", "statement": "After a = b for Face or Solid, a equals b; copy-constructing a Solid keeps its faces.", "quantifier": "all faces, solids", "why_tests_cant": "Refutation needs exact semantics of the operators.", "anchors": ["src/Face.cpp", "src/Solid.cpp"]}
{"id": "C85", "title": "Mesh boolean split keeps both inputs", "statement": "MeshBoolean::split_meshes(A,B) only refers to existing triangles and partitions A and B into pieces with the same total surface.", "quantifier": "all pairs of meshes", "why_tests_cant": "Indices are only wrong once some triangle has been unlinked.", "anchors": ["src/MeshBoolean.cpp"]}
{"id": "C86", "title": "OBJ loader never runs into undefined behaviour", "statement": "OBJFile::load on any text returns normally with a well-formed mesh: malformed lines never make it read uninitialised or out-of-range data or stop the program.", "quantifier": "every text, every mesh loaded into", "why_tests_cant": "All byte strings, including truncated and damaged files.", "anchors": ["src/OBJFile.cpp: load"]}
{"id": "C87", "title": "STEP control net agrees with degrees and knots", "statement": "In the B_SPLINE_SURFACE entity of a written STEP file the list of lists of control points has the layout the format requires: as many rows as sum(u multiplicities) - degree_u - 1, each with sum(v multiplicities) - degree_v - 1 points.", "quantifier": "every surface", "why_tests_cant": "All grid sizes; square grids hide it.", "anchors": ["src/StepFile.cpp: StepWriter::write"]}
{"id": "C88", "title": "Icosahedron and dodecahedron are the regular solids", "statement": "create_icosahedron(d) has all edges of equal length, all vertices on one sphere and the volume of the regular icosahedron with that edge; create_dodecahedron(d) is made of twelve planar regular pentagons with vertices on one sphere and has the volume of the regular dodecahedron.", "quantifier": "all real sizes d", "why_tests_cant": "Identities in the golden ratio over all sizes; tests compare rounded values for one size.", "anchors": ["src/MeshFactory.cpp: create_icosahedron, create_dodecahedron"]}
{"id": "C89", "title": "Control net mesh shows every cell of the net", "statement": "NurbsUtil::to_controlpoints_mesh empties the mesh and adds, for every cell of the control net, a quad made of the four control points around it, cut along the diagonal that gives the smaller area; nothing else is added, the colour is kept and the mesh is consistent.", "quantifier": "all surfaces with a full grid of control points, all meshes", "why_tests_cant": "Net sizes and point positions are unbounded; a transposed index only shows on nets that are not square.", "anchors": ["src/NurbsUtil.cpp: to_controlpoints_mesh", "src/Mesh.cpp: add_quad"]}
{"id": "C90", "title": "Triangle / segment intersection is sound and complete", "statement": "Triangle3::intersect_with(segment, point) returns true exactly when the segment and the triangle share a point, and the point it gives is then that shared point.", "quantifier": "all triangles and segments", "why_tests_cant": "The wrong answers are on a line and on a plane, sets of measure zero that random samples never hit.", "anchors": ["src/Geometry.cpp: Triangle3::intersect_with(const Segment3&, Point3&)"]}
{"id": "C91", "title": "Plane cut test is exact", "statement": "Triangle3::cutted_by(plane) returns true exactly when the triangle has points strictly on both sides of the plane; touching the plane is not a cut.", "quantifier": "all triangles and planes", "why_tests_cant": "A two-sided claim about all points of the triangle, over a continuous input space.", "anchors": ["src/Geometry.cpp: Triangle3::cutted_by"]}
{"id": "C92", "title": "Splitting a triangle by a triangle", "statement": "Mesh::split_triangle(i, t) cuts triangle i along t: it never stops on an assertion, keeps surface and volume, and after it no piece of triangle i crosses t.", "quantifier": "all meshes, all triangle ids in range, all cutting triangles", "why_tests_cant": "The branch taken depends on which corners are exactly in a plane.", "anchors": ["src/Mesh.cpp: Mesh::split_triangle(int, const Triangle3&)"]}
{"id": "C93", "title": "A filled triangle covers its pixels, in its colour, at its depth", "statement": "Renderer::draw_triangle paints every pixel of the window that lies in the projected triangle and is not hidden by something nearer, and no pixel outside it; painted pixels get the shaded colour of the triangle and a depth between the depths of its corners.", "quantifier": "all cameras, lights, triangles, window sizes and buffer contents", "why_tests_cant": "A picture test compares a few images; clipping at the four borders, rounding and the sort of the corners give many cases, each wrong on few pixels.", "anchors": ["src/Renderer.cpp: draw_triangle, draw_trapeze, draw_horizontal_line"]}
{"id": "C94", "title": "Back faces and triangles outside the window are skipped", "statement": "draw_triangle returns false and leaves the picture unchanged when the triangle is seen from behind and is not two-sided, or when it lies entirely on one side of the window; otherwise it returns true.", "quantifier": "all cameras, triangles and window sizes", "why_tests_cant": "A universally quantified statement about signs of areas and of coordinates.", "anchors": ["src/Renderer.cpp: draw_triangle"]}
{"id": "C95", "title": "Drawing a mesh draws its faces, drawing a polyline draws its segments", "statement": "Renderer::draw_mesh gives exactly the picture of drawing the faces of the mesh one after the other in its colour (or the given one), unlinked triangles are invisible, and sides are drawn only for faces that were drawn; draw_polyline gives exactly the picture of drawing its consecutive segments.", "quantifier": "all meshes built through the API, all polylines, all renderer states", "why_tests_cant": "Equality of whole pictures for all meshes.", "anchors": ["src/Renderer.cpp: draw_mesh, draw_polyline"]}
{"id": "C96", "title": "Closed curves and closed surfaces are recognised", "statement": "NurbsCurve::is_closed(tol) holds exactly when the curve has at least two control points and its ends are less than tol apart; extrusions, ruled surfaces and surfaces of revolution get a closed flag in a direction exactly when the surface closes up in that direction, so that the mesh of a torus is watertight.", "quantifier": "all curves, tolerances, directions, profiles and surface objects", "why_tests_cant": "Quantifies over all curves and tolerances, and over the former state of the surface object that receives the result.", "anchors": ["src/NurbsCurve.cpp: is_closed", "src/NurbsExtrude.cpp", "src/NurbsRevolve.cpp", "src/NurbsRuled.cpp", "src/NurbsFactory.cpp: create_torus"]}
{"id": "C97", "title": "A drawn segment is an unbroken line of pixels between its ends", "statement": "Renderer::draw_line paints, in the given colour and at the interpolated depth, the pixels of an unbroken chain from the pixel of the first point to the pixel of the second, hidden where something nearer was drawn before, and changes no other pixel.", "quantifier": "all cameras, points, window sizes and pictures drawn before", "why_tests_cant": "Exact set of pixels for all segments, also those that leave the window.", "anchors": ["src/Renderer.cpp: draw_line"]}
{"id": "C98", "title": "Neighbour queries find the triangles across the edges", "statement": "Mesh::get_near_triangles gives, for each edge of the triangle, the linked triangle on the other side of that edge, or -1 if there is none.", "quantifier": "every mesh obtained through the interface, every triangle; every kernel", "why_tests_cant": "Every mesh and every history of calls.", "anchors": ["src/Mesh.cpp: get_near_triangles", "src/MeshKernelLinkedTriangles.cpp", "src/MeshKernelTIN.cpp", "src/MeshKernelHalfEdge.cpp"]}
{"id": "C99", "title": "Moving a NURBS shape moves everything made from it", "statement": "After apply_transform on a NurbsSolid or NurbsSurface every evaluated point is the transformed point, and the mesh made by NurbsUtil::to_mesh is the transformed mesh of the original (same triangles, same colour); the polyline of a moved curve is the moved polyline.", "quantifier": "all valid solids, surfaces and curves, all affine transforms, all meshable segment counts", "why_tests_cant": "All shapes, transforms and sizes.", "anchors": ["src/NurbsSolid.cpp: apply_transform", "src/NurbsUtil.cpp: to_mesh", "src/NurbsSurface.cpp: apply_transform", "src/NurbsCurve.cpp: to_polyline"]}
{"id": "C100", "title": "Coordinates in OBJ files", "statement": "Saving a mesh to an OBJ file and loading it gives back every coordinate to six significant digits: the relative error is at most 6/1000000, order and signs are kept, no two different coordinates become equal, and saving the loaded mesh again writes the same numbers and loses nothing more.", "quantifier": "all meshes of doubles, including zeros of both signs, subnormal, infinite and undefined coordinates", "why_tests_cant": "All doubles; the failures are in the subnormal range and at infinities.", "anchors": ["src/OBJFile.cpp: write, load"]}
{"id": "C101", "title": "Numbers in STEP files", "statement": "Every coordinate, knot and weight in a written STEP file is a REAL in the sense of ISO 10303-21: it has a decimal point, and an exponent begins with a capital E.", "quantifier": "all surfaces and solids", "why_tests_cant": "Depends on the value of each number written.", "anchors": ["src/StepFile.cpp: write_cartesian_point, write"]}
{"id": "C102", "title": "Angles are degrees, new rotations are neutral", "statement": "A rotation built from an angle and a unit axis, as a matrix, an angle-axis rotation or a quaternion, turns every point about the axis through the origin by that many degrees, right-handed; the angles of RotationEulerAngles are degrees about the coordinate axes. A rotation built with no arguments leaves every point where it is.", "quantifier": "all angles, all unit axes, all points", "why_tests_cant": "A wrong conversion factor or an axis taken the wrong way round shows only at particular angles and axes; tests compare a few right angles with a tolerance.", "anchors": ["src/Transform.cpp: RotationEulerAngles, RotationQuaternion, RotationMatrix, RotationAngleAxis"]}
{"id": "C103", "title": "Round solids are regular", "statement": "create_cylinder, create_sphere_uv and create_torus put their vertices at equal angles on the surface asked for, in a fixed order, and volume() of the result is the volume of the polyhedron through those points; the difference to the volume of the smooth solid falls with the square of the number of segments. Faces wind outwards.", "quantifier": "all sizes, all segment counts >= 0", "why_tests_cant": "The volume is a sum over a number of faces that depends on the segment count; a wrong step or a face wound the wrong way at the seam shows only in the total.", "anchors": ["src/MeshFactory.cpp: create_cylinder, create_sphere_uv, create_torus", "src/Mesh.cpp: volume"]}
{"id": "C104", "title": "Subdivision and merging keep closed surfaces closed", "statement": "tessellate of a closed surface is closed: the pieces on both sides of every old edge meet in the same new edges. merge_vertices on a mesh whose vertices coincide or keep the tolerance apart leaves one vertex per position, does not move a face, and turns a surface closed by position into one closed by vertex numbers. create_sphere_geodesic(r,n) is such a surface: 10 n^2 + 2 different vertices on the sphere, 20 n^2 triangles winding outwards, every directed edge matched by its reverse.", "quantifier": "all meshes reachable through the API, all n >= 1, all radii other than 0", "why_tests_cant": "The tests count the vertices for n = 2 only; that the merge tolerance neither joins two different grid points nor leaves two copies of one apart must hold for every n, on every pair of the 20 faces.", "anchors": ["src/MeshTessellate.cpp: compute", "src/MeshUtil.cpp: merge_vertices", "src/MeshFactory.cpp: create_sphere_geodesic"]}
{"id": "C105", "title": "Volume, area and orientation in doubles", "statement": "For a mesh of n linked triangles whose coordinates are finite doubles of magnitude at most 2^k, volume() and surface() return finite doubles that differ from the exact volume and area of the stored surface by at most 3 n (n+8) 2^(3k-53) and n (4n+70) 2^(2k-53). is_oriented_outside() is therefore right whenever the exact volume exceeds that bound in magnitude; for a mesh within it (a unit tetrahedron 2^53 away from the origin, inside out) it is wrong.", "quantifier": "all meshes of doubles reachable through the API with -200 <= k <= 200 and at most 2^50 triangles", "why_tests_cant": "The tests compare the measures of a few unit solids with a tolerance; how rounding accumulates over any number of triangles and any coordinates cannot be sampled.", "anchors": ["src/MeshMeasurements.cpp: volume, surface, is_oriented_outside", "src/Geometry.cpp: Triangle3::surface, Triangle3::orthogonal"]}
{"id": "C106", "title": "Vector algebra and planes in doubles", "statement": "On points of finite doubles of magnitude at most 2^k: dot_product and cross_product are within 5 and 2 times 2^(2k-53) of the exact values, norm has relative error at most 6*2^-53 (plus 2^-535), normalized and normalize give each component within 11*2^-53 of the exact unit vector and a length within 20*2^-53 of 1, and the plane through three points passes within 2^(k-53) (96*4^k/area + 92) of them. The unit vector of every non-null finite vector has length about 1 (fails for lengths whose square over- or underflows: the result is the null vector, or infinities and NaNs).", "quantifier": "all points of finite doubles in the stated ranges", "why_tests_cant": "Rounding errors depend on the digits of every operand; a bound for all of them needs the rounding model.", "anchors": ["src/Geometry.cpp: dot_product, cross_product, norm, normalized, normalize, Plane3::compute_using, Plane3::distance_to"]}
{"id": "C107", "title": "OBJ files of other programs", "statement": "Loading an OBJ file made of vertex lines, face lines and other lines, whatever blanks and tabs separate the fields, with LF or CR LF line ends and with or without the last one, gives a mesh with exactly the points and faces of the file in order; comments, normals and other records are ignored, extra fields too. A face that names a point that is not among the preceding ones stops the program. Faces with texture or normal indices (i/j/k) and faces of more than three corners are loaded too (fails: the first reads an uninitialised variable, the second loses all corners but three).", "quantifier": "all files made of such lines", "why_tests_cant": "Tests load files written by the library itself; the layouts other programs use are unlimited.", "anchors": ["src/OBJFile.cpp: OBJFile::load"]}
{"id": "C108", "title": "The text of a STEP file", "statement": "A STEP file is, character for character, the AP214 header, then for every surface in order one CARTESIAN_POINT per control point with its coordinates, a rational B_SPLINE_SURFACE entity with its degrees, control net, closedness, multiplicities, knots and weights, and a face, shell, solid and representation related to the product of the header, named consecutively from #20; then the trailer. A solid of several faces is one MANIFOLD_SOLID_BREP (fails: it is written as one solid per face).", "quantifier": "all lists of solids of complete surfaces, any number format", "why_tests_cant": "A test compares one file; which value lands in which field for every grid size needs a proof.", "anchors": ["src/StepFile.cpp: StepWriter"]}
{"id": "C109", "title": "Accuracy of evaluated NURBS points in double arithmetic", "statement": "For coordinates up to K in magnitude and weights between w0 and W, the point that evaluate computes in IEEE doubles has finite coordinates, each within 2^-53 * 4 K (1 + (13 d + 2) W / w0) of the exact point of the curve (d its degree) or surface (d the sum of its degrees) that the stored doubles describe, at every finite parameter in [0, 1]; with unit weights within (52 d + 12) 2^-53 K.", "quantifier": "all ready curves and surfaces of doubles with K and W between 2^-400 and 2^400 and (13 d + 2) 2^-53 W <= w0 / 2, all finite parameters in [0, 1]", "why_tests_cant": "A test compares some points with some tolerance; a bound for all inputs needs an analysis of every rounding.", "anchors": ["src/NurbsCurve.cpp: NurbsCurve::evaluate", "src/NurbsSurface.cpp: NurbsSurface::evaluate"]}
{"id": "C110", "title": "Curves and surfaces reach their end control points exactly", "statement": "In double arithmetic a clamped curve with unit weights evaluated at 0 and 1 gives its first and last control points exactly, and a surface gives its four corner control points exactly. The same holds for other equal weights (fails: with weights 3 a segment does not start at x = 0.1).", "quantifier": "all ready curves and surfaces of doubles with finite points, unit weights and end knots repeated degree + 1 times", "why_tests_cant": "Whether rounding errors vanish at the ends for every degree, knot vector and point is a statement about all of them.", "anchors": ["src/NurbsCurve.cpp: NurbsCurve::evaluate", "src/NurbsSurface.cpp: NurbsSurface::evaluate"]}
{"id": "C111", "title": "New objects and setters", "statement": "A new or cleared curve or surface holds no data, and evaluating it stops on an assertion for every parameter. A cubic Bezier triangle holds what the last call of each of its setters gave it, and the origin where none was called. A face or solid made of a mesh holds a copy of its vertices, live triangles and colour; a new face is grey and set_color changes only its colour. A segment's norm is the distance of its ends and its norm_square the square of that. A default plane is at distance 0 of every point.", "quantifier": "all curves, surfaces, parameters, sequences of setter calls, reachable meshes, segments and points", "why_tests_cant": "Sequences of calls, meshes and points are unbounded.", "anchors": ["src/NurbsCurve.cpp: NurbsCurve::NurbsCurve, clear, evaluate", "src/NurbsSurface.cpp: NurbsSurface::NurbsSurface, clear, evaluate", "src/CubicBezierTriangles.cpp: set_points, set_control_points, set_control_center", "src/Face.cpp: Face::Face, set_color", "src/Solid.cpp: Solid::Solid", "src/Geometry.cpp: Segment3::norm, norm_square, Plane3::Plane3"]}
{"id": "C112", "title": "Transforms of doubles are nearly exact", "statement": "In double arithmetic translations, scalings and rotations (Euler angles, matrices, quaternions) move every point to within a few units of 2^(k-53) of the exact place, where all coordinates are at most 2^k in magnitude, and rotations keep distances within such a bound. Translating there and back returns every point to within 3 * 2^(k-53) (and not exactly: (1,1,1) may come back to the origin).", "quantifier": "all points, vectors, factors and stored rotations of finite doubles within the stated magnitudes; rotations whose stored entries are close to exact ones", "why_tests_cant": "A bound on rounding errors for all doubles cannot be seen by sampling.", "anchors": ["src/Transform.cpp: Translation::apply, Scale::apply, RotationEulerAngles::apply, RotationQuaternion::apply, RotationMatrix::apply"]}
{"id": "C113", "title": "Rotations by degrees in doubles end near the right place", "statement": "A RotationEulerAngles, RotationQuaternion or RotationMatrix set from angles in degrees (up to 512) about a normalised axis moves every point of doubles to within a rounding-size distance of the exact rotation by that many degrees: the distance allowed is the one due to the rounded conversion literal (C102) plus 325, 2910 or 675 units of 2^(k-53), where the coordinates are at most 2^k in magnitude.", "quantifier": "all double angles up to 512 degrees, all axes whose length is between 2^-450 and 2^450, all points of finite doubles up to 2^900; all library cosines and sines within 2^-53 of the exact values", "why_tests_cant": "Covers every double angle, axis and point and every sufficiently accurate mathematical library; tests see one library and finitely many inputs.", "anchors": ["src/Transform.cpp: RotationEulerAngles::set_angles, RotationQuaternion::from_angle_axis, RotationMatrix::from_angle_axis and apply", "src/Geometry.cpp: Point3::normalized"]}
{"id": "C114", "title": "Solids built in doubles are nearly exact", "statement": "In double arithmetic MeshFactory puts the vertices of cylinders, spheres and tori within 27, 53 and 79 units of 2^(k-53) of the points of the exact solid, where the sizes are at most 2^k; the corners of boxes are within one such unit per coordinate. The computed volumes of these solids, of tetrahedra and of octahedra differ from the exact volumes of the faceted solids by at most an explicit multiple of 2^(3k-53), and from those of the smooth solids by a further share that shrinks with the square of the number of segments. The meshes are reported as oriented outwards whenever the volume exceeds that bound, and always for sizes between 2^(k-1) and 2^k with 1 to 1000 segments.", "quantifier": "all finite double sizes up to 2^k for k from -190 to 190, up to 2^20 segments; all library cosines and sines within 2^-53 of the exact values", "why_tests_cant": "A bound on rounding errors for all doubles and all segment counts, for every sufficiently accurate mathematical library, cannot be seen by sampling.", "anchors": ["src/MeshFactory.cpp: create_cylinder, create_sphere_uv, create_torus, create_box, create_tetrahedron, create_octahedron", "src/MeshMeasurements.cpp: volume, is_oriented_outside"]}
{"id": "C115", "title": "Measures survive STL and OBJ files", "statement": "A mesh of doubles with coordinates up to 2^k that is saved to an STL or OBJ file and loaded again has, in double arithmetic, the volume and area of the original mesh up to an explicit bound: n triangles lose at most 3 n 2^(3k-24) of volume and 14 n 2^(2k-24) of area to single precision (STL), 84/1000000 n 2^(3k) and 196/1000000 n 2^(2k) to six digits (OBJ), apart from the rounding of the measures themselves. A volume larger than the bound keeps its sign, so that is_oriented_outside answers as before, and a closed surface stays closed.", "quantifier": "all meshes of finite doubles up to 2^k for k from -100 to 100; up to 2^31 - 1 triangles or vertices", "why_tests_cant": "A bound for all meshes and all coordinates through two file formats; tests see single files.", "anchors": ["src/STLFile.cpp: STLFile::save, load", "src/OBJFile.cpp: OBJFile::save, load", "src/MeshMeasurements.cpp: volume, surface, is_oriented_outside"]}
{"id": "C116", "title": "Moved meshes keep their measures in doubles", "statement": "In double arithmetic a mesh that apply_transform turns by degrees about an axis (matrix or quaternion) has the volume and area of the original mesh up to an explicit bound of rounding size; so has a closed mesh that is translated. Scaling multiplies the volume by the product of the factors and the area by the square of a common factor, up to such a bound. Turning by Euler angles keeps the area but negates the volume. The orientation test follows whenever the volume exceeds the bound.", "quantifier": "all meshes of finite doubles up to 2^k for k from -190 to 190 with up to 2^50 triangles, all angles up to 512 degrees, all axes of length 2^-450 to 2^450, all vectors and factors within the stated magnitudes; all library cosines and sines within 2^-53 of the exact values", "why_tests_cant": "A bound on rounding errors for all meshes, angles and axes and for every sufficiently accurate mathematical library cannot be seen by sampling.", "anchors": ["src/Mesh.cpp: Mesh::apply_transform", "src/Transform.cpp: Translation, Scale, RotationEulerAngles, RotationQuaternion, RotationMatrix", "src/MeshMeasurements.cpp: volume, surface, is_oriented_outside"]}
{"id": "C117", "title": "Surface areas of the factory solids", "statement": "surface returns, for a cylinder from the factory, the sides and caps of the inscribed prism, at most 2 pi (r^2 + |r h|) and short of it by a share falling with the square of the number of segments; for the sphere of meridians at most 4 pi r^2, for a ring torus at most 4 pi^2 R r, each short by such a share; 5 sqrt 3 s^2 for the icosahedron and 3 sqrt(25 + 10 sqrt 5) s^2 for the dodecahedron with edge s = 2 tau d. In doubles the measured areas of the cylinder, sphere and torus are those of the smooth solids up to the share of the facets and an explicit rounding bound.", "quantifier": "all sizes (of any sign for cylinder and sphere, 0 <= r <= R for the torus), all segment counts, all meshes built before; in doubles all sizes up to 2^k for k from -190 to 190 and up to 2^20 segments", "why_tests_cant": "The inequality and its rate hold for all sizes and segment counts; tests compare single meshes with a tolerance.", "anchors": ["src/MeshFactory.cpp: create_cylinder, create_sphere_uv, create_torus, create_icosahedron, create_dodecahedron", "src/MeshMeasurements.cpp: surface", "src/Geometry.cpp: Triangle3::surface"]}
{"id": "C118", "title": "Merging vertices in doubles and after an STL file", "statement": "With numbers of any kind merge_vertices succeeds and merges exactly by the distances as computed: kept vertices are pairwise not near as computed, every other vertex goes to an earlier kept one it is near to. In doubles the decision is right up to a share of 2^-50 of the tolerance. When vertices are equal or farther apart than the tolerance, every position remains once, the faces stay and a surface closed by position becomes closed by vertex ids; so saving a closed mesh as STL, loading it and merging its vertices gives a mesh closed by ids with every face within 2^(k-23) of the original.", "quantifier": "all meshes, all number types; in doubles all meshes of finite coordinates up to 2^400 (2^k, k from -100 to 100, up to 2^31 - 1 triangles for STL) and all tolerances from 2^-400 to 2^400", "why_tests_cant": "The merge depends on all pairs of vertices and on rounding near the tolerance; the welding claim is for every closed mesh.", "anchors": ["src/MeshUtil.cpp: merge_vertices", "src/Geometry.cpp: Point3::distance_square", "src/STLFile.cpp: save, load"]}
{"id": "C119", "title": "Tidying and tessellating in any arithmetic and in doubles", "statement": "With numbers of any kind remove_empty_triangles succeeds, keeps vertices, ids and colour and removes exactly the triangles with a side below the tolerance as computed; in doubles the decision is right up to a share of 2^-50 of the tolerance. Tessellating doubles succeeds and gives n*n triangles for each one, every corner within 2^(k-48) of an exact subdivision, with the volume, area and orientation of the original up to explicit rounding errors. A closed surface is still closed after tessellating. Merging the vertices of the tessellation gives a mesh closed by vertex ids.", "quantifier": "all meshes and all number types for removing; in doubles all meshes with finite coordinates up to 2^k (k up to 400 for removing, -190 to 190 for measures, -350 to 390 for welding), all n from 1 with at most 2^50 triangles, all tolerances from 2^-400 to 2^400", "why_tests_cant": "Rounding decides both which triangles are thin and whether points computed twice along a shared side agree; the claims are for every mesh and every number of parts.", "anchors": ["src/MeshUtil.cpp: remove_empty_triangles, merge_vertices", "src/MeshTessellate.cpp: compute", "src/Geometry.cpp: Point3"]}
{"id": "C120", "title": "Quadratic Bezier patches and the smooth sphere in doubles", "statement": "In doubles, evaluating a quadratic Bezier triangle with positive weights never fails on the parameter triangle and gives a point within 2^(k+j-i-44) of the exact patch, whether the third parameter is left out or given; with unit weights the three corners come out exactly. add_to_mesh gives every vertex that close to the exact grid of the patch and the same triangles as with exact numbers. Every point of the smooth sphere of radius d is within 2^(k-44) of a point whose squared distance from the centre is between 25/27 and 9/8 of d*d. Patches that share an edge meet along it.", "quantifier": "all patches with finite coordinates up to 2^k (|k| <= 400, 900 for corners) and weights from 2^i to 2^j (-200 <= i <= j <= 200, j - i <= 40), all finite parameters in the triangle, all n from 1 to 2^50, all reachable meshes", "why_tests_cant": "The third parameter is found by two rounded subtractions and the weighted sum by a rounded division; the bound is for every patch, every parameter and every number of segments.", "anchors": ["src/QuadBezierTriangle.cpp: eval, add_to_mesh, set_points, set_control_points, set_weights", "src/SmoothMeshFactory.cpp: create_sphere"]}
{"id": "C121", "title": "What the Mandelbrot picture shows", "statement": "The Mandelbrot generator gives every pixel the grey level that counts the points of the orbit c, c*c+c, ... of its complex number before the first one at distance 2 or more from the origin, at most the number of iterations; the real axis runs from right to left over [-2.1,0.9] and the imaginary one upwards over [-1.5,1.5]. The picture is symmetric about the real axis. Points of the Mandelbrot set get the full level.", "quantifier": "all sizes whose offsets are ints, all iteration counts from 0 to 255, all pixels, in exact arithmetic", "why_tests_cant": "The level of every pixel of every picture size is compared with the orbit itself, which no list of expected pictures can cover.", "anchors": ["src/ImageGenerator.cpp: Mandelbrot"]}
{"id": "C122", "title": "Planes, boxes and triangles apart in doubles", "statement": "In doubles, for points up to 2^k and planes with normal components up to 2: the distance to a plane is within 2^(k-48) of the exact one; the cut test is right when corners are farther than that from the plane; projecting gives a point within 2^(k-46) of the exact projection; intersecting a plane with a segment gives a point within 2^(k-51) of the segment and 2^(k-46) of the plane, and a crossing is found when the ends are on different sides. Bounding boxes are the smallest boxes of the exact values, two boxes meet exactly when they share a point, and triangles apart along an axis are never said to intersect.", "quantifier": "all finite points, planes, segments and triangles up to 2^k with -350 <= k <= 350 for planes; all finite doubles for boxes and triangles apart", "why_tests_cant": "Grazing crossings make the quotient arbitrarily ill-conditioned or infinite; the bound on the returned point holds for all of them.", "anchors": ["src/Geometry.cpp:335-352", "src/Geometry.cpp:385-424", "src/Geometry.cpp:473-503", "src/Geometry.cpp:524-529", "src/Geometry.cpp:536-600"]}
{"id": "C123", "title": "Where the camera shows a point, in doubles", "statement": "In doubles, setting a camera (position, distance ahead, yaw, pitch and roll in degrees, zoom) and projecting a point never faults for a point in view, and gives the pixel of the exact projection: within 1/2 + 1/512 of a pixel inside the image and to the right of and below it, within 3/2 + 1/512 to the left and above. The inverse depth has a relative error of at most 2^-27, so of two points in front of the camera the one nearer by one part in 2^25 gets the greater inverse depth.", "quantifier": "all cameras and points with coordinates up to 2^k, -350 <= k <= 350, angles up to 512 degrees, zoom up to 65536, images up to 131072 pixels wide and high, points whose distance from the plane of the eye is at least 2^(k-16) and whose exact place is within 65536 pixels; cosine and sine accurate to 2^-53", "why_tests_cant": "The division by the depth magnifies rounding errors without limit as points come near to the plane of the eye; the bound holds for every point in view.", "anchors": ["src/RendererCamera.cpp:15-60", "src/Renderer.cpp: set_camera", "src/Transform.cpp:38-75"]}
{"id": "C124", "title": "The containment test of a triangle off its plane and in doubles", "statement": "Triangle3::contains accepts a point over the inside of a triangle and rejects one over the outside. Written with the weights a, b, c of the foot of the point and its height h in area vectors, the test is the sign of two margins, N (a b - h^2 (p-r).(q-r)) and N (a c - h^2 (p-q).(r-q)) with N the squared length of the area vector; in doubles the answer is that of the exact margins whenever these are farther than 2^(4k-42) from zero.", "quantifier": "all triangles and points over the reals; all triangles and points of finite doubles up to 2^k, -200 <= k <= 200", "why_tests_cant": "Points computed as intersections are never exactly in the plane; how the height enters the test depends on the angles of the triangle and shows up near two sides only.", "anchors": ["src/Geometry.cpp:354-373"]}
{"id": "C125", "title": "Point-normal triangles in doubles", "statement": "In doubles, setting the three normals of a cubic Bezier triangle never faults and keeps the corners; each of the six edge control points is within 49*2^(k-53) per coordinate of the exact one (a third along the edge, moved along the normal of its corner), and so lies in the tangent plane of its corner up to rounding and the error of the normal's length; the centre is within 1100*2^(k-53) of the exact one.", "quantifier": "all corners with coordinates up to 2^k, -350 <= k <= 350, and all normals with components up to 2", "why_tests_cant": "The bound is for all corners and normals at every scale; a test sees a few triangles, whose errors happen to be small.", "anchors": ["src/CubicBezierTriangles.cpp:37-64"]}
