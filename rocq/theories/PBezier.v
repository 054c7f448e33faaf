(** Properties C66, C67, C68, C69: Bezier helpers, Bezier triangles and smooth meshes. *)
From Coq Require Import ZArith List Bool Reals Lra.
From Verif Require Import Base Num MGeometry MKernel MMesh MMeshRun MMeasure MUtil MMeshFactory MBezier SMesh SReach SGeom SMeasure SMeshFac SNurbs SBezier
  LBezier LBezier2 LBezier3 LBezier4 LBezier5.
Import ListNotations.
Open Scope R_scope.

(** C66. *)
Theorem C66_bernstein : forall (k i : nat) (b : R -> R) (u : R), (1 <= k <= 3)%nat -> nth_error (family k) i = Some b -> b u = bernstein k i u.
Proof. exact family_bernstein. Qed.
Print Assumptions C66_bernstein.
Theorem C66_partition_of_unity : forall (k : nat) (u : R), (1 <= k <= 3)%nat -> sumR (map (fun b => b u) (family k)) = 1.
Proof. exact family_sum. Qed.
Print Assumptions C66_partition_of_unity.
Theorem C66_range : forall (k : nat) (u : R), (1 <= k <= 3)%nat -> 0 <= u <= 1 -> Forall (fun b => 0 <= b u <= 1) (family k).
Proof. exact family_pos. Qed.
Print Assumptions C66_range.
Theorem C66_end_points : forall (k : nat) (ps : list pt3), (1 <= k <= 3)%nat -> length ps = S k ->
  combo (map (fun b => b 0) (family k)) ps = nth 0 ps O3 /\ combo (map (fun b => b 1) (family k)) ps = nth k ps O3.
Proof. exact family_ends. Qed.
Print Assumptions C66_end_points.
Theorem C66_affine : forall (k : nat) (f : pt3 -> pt3) (ps : list pt3) (u : R), (1 <= k <= 3)%nat -> affine3 f -> length ps = S k ->
  f (combo (map (fun b => b u) (family k)) ps) = combo (map (fun b => b u) (family k)) (map f ps).
Proof. exact family_affine. Qed.
Print Assumptions C66_affine.
Example C66_case : nth_error (family 3) 2 = Some Bernstein23 /\ Bernstein23 (1 / 2) = 3 / 8 /\ (0 <= 1 / 2 <= 1).
Proof. split; [reflexivity|]. split; [unfold Bernstein23, square; cbn; field|lra]. Qed.

(** C67. eval is the weighted mean of the six points, -1 standing for 1 - s - u, and faults exactly when the weights cancel. *)
Theorem C67_eval : forall (q : QBT R) (s u v v' : R), v' = (if Req_EM_T v (-1) then 1 - s - u else v) ->
  (mass (masses q s u v') <> 0 -> qbt_eval q s u v = Ok (mean (masses q s u v'))) /\
  (mass (masses q s u v') = 0 -> qbt_eval q s u v = Err FDivZero).
Proof. exact eval_gen. Qed.
Print Assumptions C67_eval.
Theorem C67_corners : forall q : QBT R,
  (qw1 q <> 0 -> qbt_eval q 1 0 (-1) = Ok (qP1 q) /\ qbt_eval q 1 0 0 = Ok (qP1 q)) /\
  (qw2 q <> 0 -> qbt_eval q 0 1 (-1) = Ok (qP2 q) /\ qbt_eval q 0 1 0 = Ok (qP2 q)) /\
  (qw3 q <> 0 -> qbt_eval q 0 0 (-1) = Ok (qP3 q) /\ qbt_eval q 0 0 1 = Ok (qP3 q)).
Proof. exact eval_ends. Qed.
Print Assumptions C67_corners.
Theorem C67_edges : forall (q : QBT R) (t : R),
  (mass (conic (qw1 q) (qw12 q) (qw2 q) (qP1 q) (qC12 q) (qP2 q) t) <> 0 ->
     qbt_eval q (1 - t) t (-1) = Ok (mean (conic (qw1 q) (qw12 q) (qw2 q) (qP1 q) (qC12 q) (qP2 q) t))) /\
  (mass (conic (qw1 q) (qw13 q) (qw3 q) (qP1 q) (qC13 q) (qP3 q) t) <> 0 ->
     qbt_eval q (1 - t) 0 (-1) = Ok (mean (conic (qw1 q) (qw13 q) (qw3 q) (qP1 q) (qC13 q) (qP3 q) t))) /\
  (mass (conic (qw2 q) (qw23 q) (qw3 q) (qP2 q) (qC23 q) (qP3 q) t) <> 0 ->
     qbt_eval q 0 (1 - t) (-1) = Ok (mean (conic (qw2 q) (qw23 q) (qw3 q) (qP2 q) (qC23 q) (qP3 q) t))).
Proof. exact eval_edges. Qed.
Print Assumptions C67_edges.
Theorem C67_flat : forall (q0 : QBT R) (P1 P2 P3 : pt3) (w s u v : R), w <> 0 -> s + u + v = 1 ->
  let q := qbt_set_weights (qbt_set_points q0 P1 P2 P3) w w w w w w in
  qbt_eval q s u v = Ok (bary_map P1 P2 P3 s u v) /\ qbt_eval q s u (-1) = Ok (bary_map P1 P2 P3 s u v).
Proof. exact eval_flat. Qed.
Print Assumptions C67_flat.
(** Positive weights: the patch stays in the convex hull; it follows its control points through affine maps. *)
Theorem C67_hull : forall (q : QBT R) (s u : R), positive_weights q -> 0 <= s -> 0 <= u -> s + u <= 1 ->
  exists p, qbt_eval q s u (-1) = Ok p /\ in_hull [qP1 q; qP2 q; qP3 q; qC12 q; qC13 q; qC23 q] p.
Proof. exact eval_hull. Qed.
Print Assumptions C67_hull.
Theorem C67_transform : forall (q : QBT R) (f : pt3 -> pt3) (s u v : R) (p : pt3), affine3 f -> qbt_eval q s u v = Ok p ->
  qbt_eval (qbt_apply_transform q f) s u v = Ok (f p).
Proof. exact eval_affine. Qed.
Print Assumptions C67_transform.
(** What add_to_mesh appends: (n+1)(n+2)/2 points of the patch, row by row, and [patch_count n] triangles between
    them, all turned the same way, opposite to P1, P2, P3. *)
Theorem C67_add_to_mesh : forall (q : QBT R) (n : Z) (m : Mesh R) (a : AMesh R), (1 <= n)%Z -> positive_weights q -> reach m -> shows m a ->
  exists m' ts, qbt_add_to_mesh q m n = Ok m' /\ reach m' /\
    shows m' (with_tris (with_verts a (grid n (fun i j => mean (masses q (IZR i / IZR n) (IZR j / IZR n) (1 - IZR i / IZR n - IZR j / IZR n))))) ts) /\
    len ts = patch_count n /\
    forall t, In t ts -> exists i1 j1 i2 j2 i3 j3, on_grid n i1 j1 /\ on_grid n i2 j2 /\ on_grid n i3 j3 /\
      t = (nb_vertices m + rank n i1 j1, nb_vertices m + rank n i2 j2, nb_vertices m + rank n i3 j3)%Z /\
      ((i2 - i1) * (j3 - j1) - (i3 - i1) * (j2 - j1) = -1)%Z.
Proof. exact patch_full. Qed.
Print Assumptions C67_add_to_mesh.
Theorem C67_grid : forall (n i j : Z) (g : Z -> Z -> pt3), on_grid n i j ->
  len (grid n g) = ((n + 1) * (n + 2) / 2)%Z /\ (0 <= rank n i j < len (grid n g))%Z /\ nth (Z.to_nat (rank n i j)) (grid n g) O3 = g i j.
Proof. exact grid_facts. Qed.
Print Assumptions C67_grid.
(** The n^2 triangles of the claim: right for 1 segment only; 2, 3, 4, ... segments leave holes. *)
Theorem C67_triangle_count_refuted : forall (q : QBT R) (n : Z) (m : Mesh R), (1 <= n)%Z -> positive_weights q -> reach m ->
  exists m', qbt_add_to_mesh q m n = Ok m' /\ nb_triangles m' = (nb_triangles m + patch_count n)%Z /\ (patch_count n = n * n <-> n = 1)%Z.
Proof. exact patch_triangles. Qed.
Print Assumptions C67_triangle_count_refuted.
Theorem C67_area_refuted : forall (P1 P2 P3 : pt3) (n : Z) (m : Mesh R) (a : AMesh R), (1 <= n)%Z -> reach m -> shows m a ->
  exists m', qbt_add_to_mesh (qbt_set_points qbt_new P1 P2 P3) m n = Ok m' /\
    surface m' = Ok (total_area a + IZR (patch_count n) / (IZR n * IZR n) * area3 P1 P2 P3).
Proof. exact flat_area. Qed.
Print Assumptions C67_area_refuted.
Theorem C67_no_segments : forall (q : QBT R) (n : Z) (m : Mesh R), (n <= 0)%Z ->
  qbt_add_to_mesh q m n = if Z.eqb n 0 then Err FDivZero else Ok m.
Proof. exact no_segments. Qed.
Print Assumptions C67_no_segments.
Example C67_case : positive_weights (qbt_set_weights (qbt_set_points qbt_new (mkP 0 0 0) (mkP 1 0 0) (mkP 0 1 0)) 1 1 1 2 3 4) /\
  patch_count 2 = 2%Z /\ patch_count 5 = 11%Z /\ on_grid 5 2 3 /\ reach (@mesh_new R).
Proof. split; [unfold positive_weights; cbn; repeat constructor; lra|]. repeat split; try discriminate. apply R_new. Qed.

(** C68. *)
Theorem C68_tangent_planes : forall (c : CBT R) (N1 N2 N3 : pt3), len3 N1 = 1 -> len3 N2 = 1 -> len3 N3 = 1 ->
  exists c', cbt_set_normals c N1 N2 N3 = Ok c' /\ cP1 c' = cP1 c /\ cP2 c' = cP2 c /\ cP3 c' = cP3 c /\
  forall P Q n e, In (P, Q, n, e) (pn_edges (cP1 c) (cP2 c) (cP3 c) N1 N2 N3 c') ->
    dot3 (sub3 e P) n = 0 /\ exists k, sub3 (third P Q) e = scal3 k n.
Proof. exact pn_unit. Qed.
Print Assumptions C68_tangent_planes.
(** Normals of another length: how far the control point is from the plane. *)
Theorem C68_other_lengths : forall (c c' : CBT R) (N1 N2 N3 : pt3), cbt_set_normals c N1 N2 N3 = Ok c' ->
  forall P Q n e, In (P, Q, n, e) (pn_edges (cP1 c) (cP2 c) (cP3 c) N1 N2 N3 c') ->
  dot3 (sub3 e P) n = dot3 (sub3 Q P) n * (1 - dot3 n n) / 3.
Proof. exact pn_any. Qed.
Print Assumptions C68_other_lengths.
(** Normals perpendicular to the triangle give the flat triangle. *)
Theorem C68_flat : forall (c : CBT R) (N1 N2 N3 : pt3),
  (forall n e, In n [N1; N2; N3] -> In e [sub3 (cP2 c) (cP1 c); sub3 (cP3 c) (cP1 c)] -> dot3 e n = 0) ->
  exists c', cbt_set_normals c N1 N2 N3 = Ok c' /\ (forall P Q n e, In (P, Q, n, e) (pn_edges (cP1 c) (cP2 c) (cP3 c) N1 N2 N3 c') -> e = third P Q) /\
    ccenter c' = scal3 (/ 3) (combo [1; 1; 1] [cP1 c; cP2 c; cP3 c]).
Proof. exact pn_flat. Qed.
Print Assumptions C68_flat.
(** The centre: the mean of the six, moved away from the mean of the corners by half their difference. *)
Theorem C68_centre : forall (c c' : CBT R) (N1 N2 N3 : pt3), cbt_set_normals c N1 N2 N3 = Ok c' ->
  let E := scal3 (/ 6) (combo [1; 1; 1; 1; 1; 1] [c12 c'; c21 c'; c13 c'; c31 c'; c23 c'; c32 c']) in
  let V := scal3 (/ 3) (combo [1; 1; 1] [cP1 c; cP2 c; cP3 c]) in ccenter c' = add3 E (scal3 (/ 2) (sub3 E V)).
Proof. exact pn_centre. Qed.
Print Assumptions C68_centre.
Example C68_case : len3 (mkP 0 0 1) = 1 /\ len3 (mkP (3 / 5) 0 (4 / 5)) = 1.
Proof. unfold len3, dot3. cbn [px py pz]. split; [replace (0 * 0 + 0 * 0 + 1 * 1) with 1 by ring|replace (3 / 5 * (3 / 5) + 0 * 0 + 4 / 5 * (4 / 5)) with 1 by field]; apply sqrt_1. Qed.

(** C69. The container, for every number type. *)
Theorem C69_container : forall (T : Type) (N : Num T) (sm src : SmoothMesh T) (f : Point3 T -> Point3 T),
  sm_add_mesh sm src = Ok (sm ++ src) /\ sm_assign sm src = Ok src /\ sm_copy src = Ok src /\
  sm_apply_transform sm f = Ok (map (fun q => qbt_apply_transform q f) sm) /\ sm_clear sm = [].
Proof. exact @container. Qed.
Print Assumptions C69_container.
(** On the object itself: assignment empties it, add_mesh never ends unless it is empty. *)
Theorem C69_self_refuted : forall (T : Type) (N : Num T) (sm : SmoothMesh T) (fuel : nat), (0 < fuel)%nat ->
  sm_assign_self fuel sm = Ok [] /\ (sm <> [] -> sm_add_self fuel sm = Err FDiverge) /\ sm_add_self fuel ([] : SmoothMesh T) = Ok [].
Proof. exact @on_itself. Qed.
Print Assumptions C69_self_refuted.
(** add_to_mesh: the grids of all patches, in order. *)
Theorem C69_add_to_mesh : forall (sm : SmoothMesh R) (n : Z) (m : Mesh R), (1 <= n)%Z -> Forall positive_weights sm -> reach m ->
  exists m', sm_add_to_mesh sm m n = Ok m' /\ reach m' /\
    nb_vertices m' = (nb_vertices m + len sm * ((n + 1) * (n + 2) / 2))%Z /\ nb_triangles m' = (nb_triangles m + len sm * patch_count n)%Z.
Proof. exact smooth_counts. Qed.
Print Assumptions C69_add_to_mesh.
(** The flat solids have one flat patch for each triangle of the same solid of MeshFactory. *)
Theorem C69_flat_solids : forall (d x y z : R) (sm : SmoothMesh R) (m : Mesh R), reach m ->
  smooth_version (sm_tetrahedron d sm) (create_tetrahedron d m) /\ smooth_version (sm_box x y z sm) (create_box x y z m) /\
  smooth_version (sm_octahedron d sm) (create_octahedron d m) /\ smooth_version (sm_dodecahedron d sm) (create_dodecahedron d m) /\
  smooth_version (sm_icosahedron d sm) (create_icosahedron d m).
Proof. exact solids_smooth. Qed.
Print Assumptions C69_flat_solids.
(** Their triangulation is inside out and, for more than one segment, has holes. *)
Theorem C69_triangulation_refuted : forall (d x y z : R) (sm : SmoothMesh R) (m : Mesh R), reach m ->
  inside_out (sm_tetrahedron d sm) (create_tetrahedron d m) /\ inside_out (sm_box x y z sm) (create_box x y z m) /\
  inside_out (sm_octahedron d sm) (create_octahedron d m) /\ inside_out (sm_dodecahedron d sm) (create_dodecahedron d m) /\
  inside_out (sm_icosahedron d sm) (create_icosahedron d m).
Proof. exact solids_inside_out. Qed.
Print Assumptions C69_triangulation_refuted.
(** The sphere: one patch per octant with its corners on the sphere; the patches meet along their edges. *)
Theorem C69_sphere_patches : forall (d : R) (sm : SmoothMesh R),
  exists ps, NoDup ps /\ (forall i j k, In (i, j, k) ps <-> sign i /\ sign j /\ sign k) /\
  Forall2 (fun q e => let '(i, j, k) := e in forall s u v, s + u + v = 1 ->
    let p := mkP (i * d * (1 - (1 - s) ^ 2)) (j * d * (1 - (1 - u) ^ 2)) (k * d * (1 - (1 - v) ^ 2)) in
    qbt_eval q s u v = Ok p /\ qbt_eval q s u (-1) = Ok p) (sm_sphere d sm) ps.
Proof. exact sphere_patches. Qed.
Print Assumptions C69_sphere_patches.
Theorem C69_sphere_corners : forall (d : R) (sm : SmoothMesh R) (q : QBT R), In q (sm_sphere d sm) ->
  on_sphere d (qP1 q) /\ on_sphere d (qP2 q) /\ on_sphere d (qP3 q).
Proof. exact sphere_corners. Qed.
Print Assumptions C69_sphere_corners.
(** Not on the sphere: the middle of every patch is inside, the middles of the edges are outside ... *)
Theorem C69_sphere_refuted : forall (d : R) (sm : SmoothMesh R), d <> 0 -> forall q, In q (sm_sphere d sm) ->
  exists p p', qbt_eval q (/ 3) (/ 3) (/ 3) = Ok p /\ qbt_eval q (/ 2) (/ 2) 0 = Ok p' /\ ~ on_sphere d p /\ ~ on_sphere d p' /\
    sq_dist p = 25 / 27 * (d * d) /\ sq_dist p' = 9 / 8 * (d * d).
Proof. exact sphere_refuted. Qed.
Print Assumptions C69_sphere_refuted.
(** ... and these are the worst points. *)
Theorem C69_sphere_near : forall (d : R) (sm : SmoothMesh R) (q : QBT R) (s u v : R), In q (sm_sphere d sm) -> 0 <= s -> 0 <= u -> 0 <= v -> s + u + v = 1 ->
  exists p, qbt_eval q s u v = Ok p /\ 25 / 27 * (d * d) <= sq_dist p <= 9 / 8 * (d * d) /\
    (d <> 0 -> (on_sphere d p <-> (s * u + s * v + u * v) ^ 2 = 4 * (s * u * v))).
Proof. exact sphere_near. Qed.
Print Assumptions C69_sphere_near.
Example C69_case : length (sm_sphere 2 []) = 8%nat /\ In (sphere_patch 2 2 2) (sm_sphere 2 []) /\ coverage 4 = 6 / 16.
Proof. split; [reflexivity|]. split; [left; reflexivity|]. unfold coverage. cbn. field. Qed.
