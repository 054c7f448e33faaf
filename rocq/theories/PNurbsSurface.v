(** Properties C56-C65: NURBS surfaces (exact real arithmetic unless generic in T). *)
From Coq Require Import ZArith List Bool Lia Reals Lra Permutation.
From Verif Require Import Base Num MGeometry MTransform MKernel MMesh MMeshRun MNurbs MNurbsSurface MNurbsFactory SMesh SReach SGeom SMeasure SNurbs SSurface
  LNurbsEx LSurf LSurf2 LSurf3 LRevolve LFactory LSurfClear LSurfMesh LSurfFinal LClosed SSolid LSolidMesh MMeasure SNetMesh LNetMesh PMesh.
Import ListNotations.
Open Scope Z_scope.

(** C56. *)
Theorem C56_evaluate_formula : forall (s : NurbsSurface R) u v, svalid s -> (0 <= u <= 1)%R -> (0 <= v <= 1)%R ->
  exists s', ns_evaluate s u v = Ok (surf_at s u v, s') /\ same_sdata s s' /\ svalid s'.
Proof. exact sevaluate_ok. Qed.
Print Assumptions C56_evaluate_formula.
Theorem C56_corners : forall (s : NurbsSurface R) (bu bv : bool), svalid s ->
  tight (ns_knotsU s) (ns_degU s) (ns_nbU s) -> tight (ns_knotsV s) (ns_degV s) (ns_nbV s) ->
  spoint_of (ns_evaluate s (end_par bu) (end_par bv)) = Ok (scp s (end_at (ns_nbU s) bu) (end_at (ns_nbV s) bv)).
Proof. exact surf_corner. Qed.
Print Assumptions C56_corners.
Theorem C56_convex_hull : forall (s : NurbsSurface R) u v n d, svalid s -> (0 <= u <= 1)%R -> (0 <= v <= 1)%R ->
  (forall p, In p (ns_points s) -> dot3 n p <= d)%R ->
  exists p, spoint_of (ns_evaluate s u v) = Ok p /\ (dot3 n p <= d)%R.
Proof. exact sevaluate_hull. Qed.
Print Assumptions C56_convex_hull.
Theorem C56_bounding_box : forall (s : NurbsSurface R) u v lo hi, svalid s -> (0 <= u <= 1)%R -> (0 <= v <= 1)%R ->
  (forall p, In p (ns_points s) -> px lo <= px p <= px hi /\ py lo <= py p <= py hi /\ pz lo <= pz p <= pz hi)%R ->
  exists p, spoint_of (ns_evaluate s u v) = Ok p /\ (px lo <= px p <= px hi /\ py lo <= py p <= py hi /\ pz lo <= pz p <= pz hi)%R.
Proof. exact sevaluate_box. Qed.
Print Assumptions C56_bounding_box.
Theorem C56_affine : forall (s : NurbsSurface R) f u v, svalid s -> (0 <= u <= 1)%R -> (0 <= v <= 1)%R -> affine3 f ->
  spoint_of (ns_evaluate (ns_apply_transform s f) u v) = (do p <- spoint_of (ns_evaluate s u v); Ok (f p)).
Proof. exact sevaluate_affine. Qed.
Print Assumptions C56_affine.
(** A torus: degree 2, seven by nine control points, weights not all equal. *)
Example C56_case : exists s, nf_create_torus 5%R 2%R ns_new = Ok s /\ svalid s.
Proof. destruct (torus_exact 5 2 ns_new) as [s [E [V _]]]. exists s. auto. Qed.

(** C57.  Degree elevation: degrees 1 and 2, every knot span regular (the code computes the new knots
    from the distinct knots, so an interior knot of multiplicity above the degree is out of scope);
    from degree 3 on it returns false and changes nothing. *)
Theorem C57_insert_knot_u : forall (s : NurbsSurface R) x, svalid s -> (0 <= x <= 1)%R ->
  exists s', ns_insert_knot_u s x = Ok s' /\ svalid s' /\
  ns_degU s' = ns_degU s /\ ns_nbU s' = ns_nbU s + 1 /\ Permutation (ns_knotsU s') (x :: ns_knotsU s) /\ same_v s s' /\
  forall u v, (0 <= u <= 1)%R -> (0 <= v <= 1)%R -> spoint_of (ns_evaluate s' u v) = spoint_of (ns_evaluate s u v).
Proof. exact insert_u_ok. Qed.
Print Assumptions C57_insert_knot_u.
Theorem C57_insert_knot_v : forall (s : NurbsSurface R) x, svalid s -> (0 <= x <= 1)%R ->
  exists s', ns_insert_knot_v s x = Ok s' /\ svalid s' /\
  ns_degV s' = ns_degV s /\ ns_nbV s' = ns_nbV s + 1 /\ Permutation (ns_knotsV s') (x :: ns_knotsV s) /\ same_u s s' /\
  forall u v, (0 <= u <= 1)%R -> (0 <= v <= 1)%R -> spoint_of (ns_evaluate s' u v) = spoint_of (ns_evaluate s u v).
Proof. exact insert_v_ok. Qed.
Print Assumptions C57_insert_knot_v.
Theorem C57_elevation_u_partial : forall (s : NurbsSurface R), svalid s -> ns_degU s = 1 \/ ns_degU s = 2 -> regular (ns_knotsU s) (ns_degU s) (ns_nbU s) ->
  exists s', ns_degree_elevation_u s = Ok (true, s') /\ svalid s' /\ ns_degU s' = ns_degU s + 1 /\
    ns_nbU s' = elev_size (ns_degU s) (ns_nbU s) (ns_knotsU s) /\ same_v s s' /\
    forall u v, (0 <= u <= 1)%R -> (0 <= v <= 1)%R -> spoint_of (ns_evaluate s' u v) = spoint_of (ns_evaluate s u v).
Proof. exact elevate_u_ok. Qed.
Print Assumptions C57_elevation_u_partial.
Theorem C57_elevation_v_partial : forall (s : NurbsSurface R), svalid s -> ns_degV s = 1 \/ ns_degV s = 2 -> regular (ns_knotsV s) (ns_degV s) (ns_nbV s) ->
  exists s', ns_degree_elevation_v s = Ok (true, s') /\ svalid s' /\ ns_degV s' = ns_degV s + 1 /\
    ns_nbV s' = elev_size (ns_degV s) (ns_nbV s) (ns_knotsV s) /\ same_u s s' /\
    forall u v, (0 <= u <= 1)%R -> (0 <= v <= 1)%R -> spoint_of (ns_evaluate s' u v) = spoint_of (ns_evaluate s u v).
Proof. exact elevate_v_ok. Qed.
Print Assumptions C57_elevation_v_partial.
Theorem C57_elevation_refused : forall {T} {N : Num T} (s : NurbsSurface T),
  (3 <= ns_degU s -> ns_degree_elevation_u s = Ok (false, s)) /\ (3 <= ns_degV s -> ns_degree_elevation_v s = Ok (false, s)).
Proof. intros T N. exact elevate_high. Qed.
Print Assumptions C57_elevation_refused.

(** C58.  clear() keeps the closed flags and the sizes of the scratch vectors: as new only when the flags
    were off, and for sequences of calls that start with set_degree. *)
Theorem C58_clear_as_new_partial : forall {T} {N : Num T} (s : NurbsSurface T) du dv (l : list (sop T)), ns_closedU s = false -> ns_closedV s = false ->
  alike (sdo_all ns_new (SDegree du dv :: l)) (sdo_all (ns_clear s) (SDegree du dv :: l)).
Proof. intros T N. exact clear_as_new. Qed.
Print Assumptions C58_clear_as_new_partial.
Theorem C58_clear_refuted : exists (s : NurbsSurface R) (l : list (sop R)), ~ alike (sdo_all ns_new l) (sdo_all (ns_clear s) l).
Proof. exact clear_refuted. Qed.
Print Assumptions C58_clear_refuted.
(** set_equals_weights is a vector resize: weights that are already there keep their value. *)
Theorem C58_equal_weights_partial : forall {T} {N : Num T} (s : NurbsSurface T), exists s', ns_set_equals_weights s = Ok s' /\
  ns_points s' = ns_points s /\ vsize (ns_weights s') = vsize (ns_points s) /\
  forall i, 0 <= i < vsize (ns_points s) -> vget (ns_weights s') i = if i <? vsize (ns_weights s) then vget (ns_weights s) i else Ok n1.
Proof. intros T N. exact equal_weights_exact. Qed.
Print Assumptions C58_equal_weights_partial.
Theorem C58_equal_weights_refuted : exists s s' : NurbsSurface R, ns_set_equals_weights s = Ok s' /\ vsize (ns_weights s') = vsize (ns_points s') /\
  exists i j x y, vget (ns_weights s') i = Ok x /\ vget (ns_weights s') j = Ok y /\ x <> y.
Proof. exact equal_weights_refuted. Qed.
Print Assumptions C58_equal_weights_refuted.

(** C59. *)
Theorem C59_circle : forall r (c0 : NurbsCurve R), exists c, nf_create_circle r c0 = Ok c /\ valid c /\
  (forall t, (0 <= t <= 1)%R -> exists p, point_of (nc_evaluate c t) = Ok p /\ (px p * px p + py p * py p = r * r)%R /\ pz p = 0%R) /\
  (forall p, (px p * px p + py p * py p = r * r)%R -> pz p = 0%R -> exists t, (0 <= t <= 1)%R /\ point_of (nc_evaluate c t) = Ok p).
Proof. exact circle_exact. Qed.
Print Assumptions C59_circle.
Theorem C59_sphere : forall r (s0 : NurbsSurface R), exists s, nf_create_sphere r s0 = Ok s /\ svalid s /\
  forall u v, (0 <= u <= 1)%R -> (0 <= v <= 1)%R -> exists p, spoint_of (ns_evaluate s u v) = Ok p /\ (px p * px p + py p * py p + pz p * pz p = r * r)%R.
Proof. exact sphere_exact. Qed.
Print Assumptions C59_sphere.
Theorem C59_torus : forall rM rm (s0 : NurbsSurface R), exists s, nf_create_torus rM rm s0 = Ok s /\ svalid s /\
  forall u v, (0 <= u <= 1)%R -> (0 <= v <= 1)%R -> exists p, spoint_of (ns_evaluate s u v) = Ok p /\
    let q := (px p * px p + py p * py p + pz p * pz p + rM * rM - rm * rm)%R in (q * q = 4 * (rM * rM) * (px p * px p + py p * py p))%R.
Proof. exact torus_exact. Qed.
Print Assumptions C59_torus.
Theorem C59_solids : forall rM rm r : R, exists s s', nf_create_torus_solid rM rm = Ok [s] /\ nf_create_sphere_solid r = Ok [s'] /\ svalid s /\ svalid s' /\
  forall u v, (0 <= u <= 1)%R -> (0 <= v <= 1)%R -> exists p p', spoint_of (ns_evaluate s u v) = Ok p /\ spoint_of (ns_evaluate s' u v) = Ok p' /\
    (let q := (px p * px p + py p * py p + pz p * pz p + rM * rM - rm * rm)%R in (q * q = 4 * (rM * rM) * (px p * px p + py p * py p))%R) /\
    (px p' * px p' + py p' * py p' + pz p' * pz p' = r * r)%R.
Proof. exact solids_exact. Qed.
Print Assumptions C59_solids.
(** Bottom disk, side, top disk. *)
Theorem C59_cylinder : forall r h : R, exists s1 s2 s3, nf_create_cylinder r h = Ok [s1; s2; s3] /\ svalid s1 /\ svalid s2 /\ svalid s3 /\
  forall u v, (0 <= u <= 1)%R -> (0 <= v <= 1)%R -> exists p1 p2 p3,
    spoint_of (ns_evaluate s1 u v) = Ok p1 /\ spoint_of (ns_evaluate s2 u v) = Ok p2 /\ spoint_of (ns_evaluate s3 u v) = Ok p3 /\
    (px p1 * px p1 + py p1 * py p1 = v * r * (v * r))%R /\ pz p1 = (- (h / 2))%R /\
    (px p2 * px p2 + py p2 * py p2 = r * r)%R /\ pz p2 = (v * h - h / 2)%R /\
    (px p3 * px p3 + py p3 * py p3 = v * r * (v * r))%R /\ pz p3 = (h / 2)%R.
Proof. exact cylinder_exact. Qed.
Print Assumptions C59_cylinder.
Theorem C59_box : forall sx sy sz : R, exists a b c d e f, nf_create_box sx sy sz = Ok [a; b; c; d; e; f] /\
  forall u v, (0 <= u <= 1)%R -> (0 <= v <= 1)%R ->
    let x t := (sx / 2 - t * sx)%R in let y t := (sy / 2 - t * sy)%R in let z t := (sz / 2 - t * sz)%R in
    spoint_of (ns_evaluate a u v) = Ok (mkP (x u) (y v) (sz / 2)%R) /\ spoint_of (ns_evaluate b u v) = Ok (mkP (x v) (y u) (- (sz / 2))%R) /\
    spoint_of (ns_evaluate c u v) = Ok (mkP (sx / 2)%R (y u) (z v)) /\ spoint_of (ns_evaluate d u v) = Ok (mkP (- (sx / 2))%R (y (1 - u)%R) (z v)) /\
    spoint_of (ns_evaluate e u v) = Ok (mkP (x (1 - v)%R) (- (sy / 2))%R (z u)) /\ spoint_of (ns_evaluate f u v) = Ok (mkP (x v) (sy / 2)%R (z u)).
Proof. exact box_exact. Qed.
Print Assumptions C59_box.
Example C59_case : (0 <= 1 / 3 <= 1)%R /\ (3 * 3 + 4 * 4 = 5 * 5)%R. Proof. lra. Qed.

(** C60. *)
Theorem C60_revolve_height_radius : forall (c : NurbsCurve R) (s0 : NurbsSurface R), valid c -> exists s, nr_revolve c s0 = Ok s /\ svalid s /\
  forall u v, (0 <= u <= 1)%R -> (0 <= v <= 1)%R -> exists p q, spoint_of (ns_evaluate s u v) = Ok p /\ point_of (nc_evaluate c v) = Ok q /\
    pz p = pz q /\ (px p * px p + py p * py p = px q * px q + py q * py q)%R.
Proof. exact revolve_height_radius. Qed.
Print Assumptions C60_revolve_height_radius.
(** Stronger: each u is one rotation of the whole profile, and every angle occurs. *)
Theorem C60_revolve_rotates : forall (c : NurbsCurve R) (s0 : NurbsSurface R), valid c -> exists s, nr_revolve c s0 = Ok s /\ svalid s /\ ns_closedU s = true /\
  forall u, (0 <= u <= 1)%R -> exists cs sn, (cs * cs + sn * sn = 1)%R /\
    forall v, (0 <= v <= 1)%R -> exists q, point_of (nc_evaluate c v) = Ok q /\ spoint_of (ns_evaluate s u v) = Ok (turn_z cs sn q).
Proof. exact revolve_exact. Qed.
Print Assumptions C60_revolve_rotates.
Theorem C60_revolve_all_angles : forall (c : NurbsCurve R) (s0 : NurbsSurface R), valid c -> exists s, nr_revolve c s0 = Ok s /\
  forall cs sn, (cs * cs + sn * sn = 1)%R -> exists u, (0 <= u <= 1)%R /\
    forall v, (0 <= v <= 1)%R -> exists q, point_of (nc_evaluate c v) = Ok q /\ spoint_of (ns_evaluate s u v) = Ok (turn_z cs sn q).
Proof. exact revolve_all_round. Qed.
Print Assumptions C60_revolve_all_angles.
Example C60_case : exists c, nf_create_circle 3%R nc_new = Ok c /\ valid c.
Proof. destruct (circle_exact 3 nc_new) as [c [E [V _]]]. exists c. auto. Qed.

(** C61. *)
Theorem C61_extrude : forall (c : NurbsCurve R) dir (s0 : NurbsSurface R), valid c -> exists s, ne_extrude c dir s0 = Ok s /\ svalid s /\
  forall u v, (0 <= u <= 1)%R -> (0 <= v <= 1)%R -> exists q, point_of (nc_evaluate c u) = Ok q /\ spoint_of (ns_evaluate s u v) = Ok (add3 q (scal3 v dir)).
Proof. exact extrude_exact. Qed.
Print Assumptions C61_extrude.

(** C62. *)
Theorem C62_ruled : forall (c1 c2 : NurbsCurve R) (s0 : NurbsSurface R), valid c1 -> valid c2 -> nc_degree c2 = nc_degree c1 -> nc_knots c2 = nc_knots c1 ->
  exists s, nr_create_ruled c1 c2 s0 = Ok s /\ svalid s /\
  forall u, (0 <= u <= 1)%R -> exists p q, point_of (nc_evaluate c1 u) = Ok p /\ point_of (nc_evaluate c2 u) = Ok q /\
    spoint_of (ns_evaluate s u 0%R) = Ok p /\ spoint_of (ns_evaluate s u 1%R) = Ok q /\
    (forall v, (0 <= v <= 1)%R -> exists x, spoint_of (ns_evaluate s u v) = Ok x /\ on_segment x p q) /\
    (forall x, on_segment x p q -> exists v, (0 <= v <= 1)%R /\ spoint_of (ns_evaluate s u v) = Ok x).
Proof. exact ruled_exact. Qed.
Print Assumptions C62_ruled.
Theorem C62_quad : forall p1 p2 p3 p4 (s0 : NurbsSurface R), exists s, nf_create_quad p1 p2 p3 p4 s0 = Ok s /\ svalid s /\
  forall u v, (0 <= u <= 1)%R -> (0 <= v <= 1)%R -> spoint_of (ns_evaluate s u v) = Ok (lerp3 (lerp3 p1 p2 u) (lerp3 p4 p3 u) v).
Proof. exact quad_exact. Qed.
Print Assumptions C62_quad.
(** Two circles of different radius share degree and knots. *)
Example C62_case : exists c1 c2, nf_create_circle 3%R nc_new = Ok c1 /\ nf_create_circle 5%R nc_new = Ok c2 /\ valid c1 /\ valid c2 /\
  nc_degree c2 = nc_degree c1 /\ nc_knots c2 = nc_knots c1.
Proof.
  destruct (circle_ok 3 nc_new) as [c1 [E1 [V1 [D1 [K1 _]]]]]. destruct (circle_ok 5 nc_new) as [c2 [E2 [V2 [D2 [K2 _]]]]]. exists c1, c2.
  do 4 (split; [assumption|]). split; [congruence|]. rewrite K1, K2. reflexivity.
Qed.

(** C63. *)
Theorem C63_to_mesh_partial : forall (s : NurbsSurface R) (m : Mesh R) seg (b : bool), svalid s -> 0 < seg -> meshable seg s ->
  let m0 := if b then clear m else m in let nU := seg * ns_nbU s in let nV := seg * ns_nbV s in
  let st := nb_vertices m0 in let t0 := nb_triangles m0 in let id u v := st + u + (nU + 1) * v in
  exists m', nu_to_mesh s m seg b = Ok m' /\
    nb_vertices m' = st + (nU + 1) * (nV + 1) /\ nb_triangles m' = t0 + 2 * nU * nV /\
    (forall i, 0 <= i < st -> get_vertex m' i = get_vertex m0 i) /\
    (forall i, 0 <= i < t0 -> get_triangle_vertices m' i = get_triangle_vertices m0 i /\ is_triangle_unlinked m' i = is_triangle_unlinked m0 i) /\
    (forall u v, 0 <= u <= nU -> 0 <= v <= nV -> get_vertex m' (id u v) = Ok (surf_at s (IZR u / IZR nU) (IZR v / IZR nV))) /\
    (forall u v, 0 <= u < nU -> 0 <= v < nV -> let u' := next (ns_closedU s) nU u in let v' := next (ns_closedV s) nV v in let t := t0 + 2 * (u + nU * v) in
       get_triangle_vertices m' t = Ok (id u v, id u' v, id u' v') /\ get_triangle_vertices m' (t + 1) = Ok (id u' v', id u v', id u v) /\
       is_triangle_unlinked m' t = Ok false /\ is_triangle_unlinked m' (t + 1) = Ok false).
Proof. exact to_mesh_facts. Qed.
Print Assumptions C63_to_mesh_partial.
(** Every edge of a new triangle is met by an opposite edge of a new triangle, except on the border of a direction that is not closed. *)
Theorem C63_closes_up_partial : forall (s : NurbsSurface R) (m : Mesh R) seg (b : bool), svalid s -> 0 < seg -> meshable seg s ->
  let m0 := if b then clear m else m in let nU := seg * ns_nbU s in let nV := seg * ns_nbV s in
  let st := nb_vertices m0 in let t0 := nb_triangles m0 in let id u v := st + u + (nU + 1) * v in
  exists m', nu_to_mesh s m seg b = Ok m' /\
    forall t p q, t0 <= t < nb_triangles m' -> has_edge m' t p q ->
      (exists t', t0 <= t' < nb_triangles m' /\ has_edge m' t' q p) \/
      (ns_closedU s = false /\ exists v v', (p = id 0 v /\ q = id 0 v') \/ (p = id nU v /\ q = id nU v')) \/
      (ns_closedV s = false /\ exists u u', (p = id u 0 /\ q = id u' 0) \/ (p = id u nV /\ q = id u' nV)).
Proof. exact to_mesh_edges. Qed.
Print Assumptions C63_closes_up_partial.
Theorem C63_consistent : forall {T} {N : Num T} (s : NurbsSurface T) (m m' : Mesh T) seg b, reach m -> nu_to_mesh s m seg b = Ok m' -> reach m'.
Proof. intros T N. exact to_mesh_reach. Qed.
Print Assumptions C63_consistent.
(** More than 46340 cells along u: the int product in the test for an empty grid overflows. *)
Theorem C63_fine_grid_refuted : forall {T} {N : Num T} (s : NurbsSurface T) (m : Mesh T) seg b, 0 <= ns_nbU s -> 0 <= ns_nbV s -> 0 <= seg -> ~ meshable seg s -> nu_to_mesh s m seg b = Err FOverflow.
Proof. intros T N. exact to_mesh_overflow. Qed.
Print Assumptions C63_fine_grid_refuted.
Theorem C63_no_segments : forall (s : NurbsSurface R) (m : Mesh R) b, nu_to_mesh s m 0 b = Ok (if b then clear m else m).
Proof. exact to_mesh_zero. Qed.
Print Assumptions C63_no_segments.
(** A solid: the grids of its surfaces one after the other, in a mesh that was emptied first. *)
Theorem C63_solid_to_mesh_partial : forall (ss : list (NurbsSurface R)) (m : Mesh R) seg, Forall svalid ss -> 0 < seg -> Forall (meshable seg) ss ->
  exists m', nu_solid_to_mesh ss m seg = Ok m' /\ nb_vertices m' = total (grid_nv seg) ss /\ nb_triangles m' = total (grid_nt seg) ss /\
    forall before s after, ss = before ++ s :: after -> grid_in m' (total (grid_nv seg) before) (total (grid_nt seg) before) seg s.
Proof. exact solid_to_mesh_ok. Qed.
Print Assumptions C63_solid_to_mesh_partial.
Example C63_solid_case : exists ss, nf_create_torus_solid 3%R 1%R = Ok ss /\ Forall svalid ss /\ 0 < 2 /\ Forall (meshable 2) ss.
Proof.
  destruct (torus_solid_size 3 1) as (s & E & V & NU & NV). exists [s]. split; [exact E|]. split; [constructor; [exact V|constructor]|]. split; [lia|].
  constructor; [|constructor]. unfold meshable, int_max. lia.
Qed.
Example C63_case : exists s, nf_create_torus 3%R 1%R ns_new = Ok s /\ svalid s /\ 0 < 4 /\ meshable 4 s.
Proof. destruct (torus_flags 3 1 ns_new) as (s & E & V & _ & _ & NU & NV). exists s. do 2 (split; [assumption|]). unfold meshable, int_max. lia. Qed.
(** A polyline of 1000 points, extruded, with 47 segments per control point. *)
Example C63_case_fine : exists c s, nf_curve_from_points (repeat (mkP 0 0 0)%R (Z.to_nat 1000)) 1 nc_new = Ok c /\ ne_extrude c (mkP 0 0 1)%R ns_new = Ok s /\ svalid s /\ ~ meshable 47 s.
Proof. destruct (wide_surface 1000 ltac:(lia)) as (c & s & EC & ES & V & NU & NV). exists c, s. do 3 (split; [assumption|]). unfold meshable. lia. Qed.

(** C64.  False: the points are pushed with y running fastest while z is read in that order too, so
    (x,y) gets z[x*Y+y]; the statement holds only for symmetric square fields. *)
Theorem C64_from_z_refuted : exists (z : list R) X Y s p (x y : Z) c, vsize z = X * Y /\ 0 <= x < X /\ 0 <= y < Y /\ nu_create_from_z z X Y 1 ns_new = Ok s /\
  In p (ns_points s) /\ px p = IZR x /\ py p = IZR y /\ vget z (x + y * X) = Ok c /\ pz p <> c.
Proof. exact from_z_refuted. Qed.
Print Assumptions C64_from_z_refuted.
(** For X different from Y the control net itself is scrambled: control points (0,1) and (1,1) are adjacent in the grid but lie at (0,2) and (1,0). *)
Theorem C64_not_square_refuted : exists (z : list R) s, vsize z = 2 * 3 /\ nu_create_from_z z 2 3 1 ns_new = Ok s /\ svalid s /\
  scp s 0 1 = mkP 0%R 2%R 5%R /\ scp s 1 1 = mkP 1%R 0%R 7%R.
Proof. exact from_z_scrambled. Qed.
Print Assumptions C64_not_square_refuted.
Theorem C64_from_z_partial : forall (z : list R) X Y d s0, 0 <= d -> d < X -> d < Y -> X * Y <= vsize z ->
  exists s, nu_create_from_z z X Y d s0 = Ok s /\ svalid s /\ ns_nbU s = X /\ ns_nbV s = Y /\ ns_degU s = d /\ ns_degV s = d /\
    (forall x y, 0 <= x < X -> 0 <= y < Y -> vget (ns_points s) (x * Y + y) = Ok (mkP (IZR x) (IZR y) (nth (Z.to_nat (x * Y + y)) z 0%R))) /\
    (forall i j, 0 <= i < X -> 0 <= j < Y -> let k := i + X * j in scp s i j = mkP (IZR (k / Y)) (IZR (k mod Y)) (nth (Z.to_nat k) z 0%R)).
Proof. exact from_z_exact. Qed.
Print Assumptions C64_from_z_partial.
Theorem C64_symmetric_partial : forall (z : list R) X d s0, 0 <= d < X -> X * X <= vsize z ->
  (forall x y, 0 <= x < X -> 0 <= y < X -> vget z (x * X + y) = vget z (x + y * X)) ->
  exists s, nu_create_from_z z X X d s0 = Ok s /\ svalid s /\
    forall x y, 0 <= x < X -> 0 <= y < X -> exists c p, vget z (x + y * X) = Ok c /\ In p (ns_points s) /\ p = mkP (IZR x) (IZR y) c.
Proof. exact from_z_symmetric. Qed.
Print Assumptions C64_symmetric_partial.
Example C64_case : forall x y, 0 <= x < 2 -> 0 <= y < 2 -> vget [0; 5; 5; 9]%R (x * 2 + y) = vget [0; 5; 5; 9]%R (x + y * 2).
Proof. intros x y Hx Hy. assert (x = 0 \/ x = 1) as [->| ->] by lia; assert (y = 0 \/ y = 1) as [->| ->] by lia; reflexivity. Qed.

(** C65.  False for unlinked triangles: they give a patch too.  Everything else holds. *)
Theorem C65_from_mesh_partial : forall m : Mesh R, reach m -> exists ss, nu_create_from_mesh m = Ok ss /\ vsize ss = nb_triangles m /\
  forall i, 0 <= i < nb_triangles m -> exists t s, get_triangle m i = Ok t /\ vget ss i = Ok s /\ svalid s /\
    spoint_of (ns_evaluate s 0 0)%R = Ok (t1 t) /\ spoint_of (ns_evaluate s 1 0)%R = Ok (t2 t) /\ spoint_of (ns_evaluate s 0 1)%R = Ok (t3 t) /\ spoint_of (ns_evaluate s 1 1)%R = Ok (t3 t) /\
    (forall u v, (0 <= u <= 1)%R -> (0 <= v <= 1)%R -> exists p, spoint_of (ns_evaluate s u v) = Ok p /\ in_tri t p) /\
    (forall p, in_tri t p -> exists u v, (0 <= u <= 1)%R /\ (0 <= v <= 1)%R /\ spoint_of (ns_evaluate s u v) = Ok p).
Proof. exact from_mesh_exact. Qed.
Print Assumptions C65_from_mesh_partial.
Theorem C65_unlinked_refuted : exists (m : Mesh R) ss, reach m /\ nu_create_from_mesh m = Ok ss /\ is_triangle_unlinked m 0 = Ok true /\ is_triangle_unlinked m 1 = Ok false /\ vsize ss = 2.
Proof.
  exists ex_mesh. destruct (from_mesh_exact ex_mesh ex_mesh_reach) as [ss [E [S _]]]. exists ss. split; [exact ex_mesh_reach|]. split; [exact E|]. split; [reflexivity|]. split; [reflexivity|]. exact S.
Qed.
Print Assumptions C65_unlinked_refuted.

(** C89. *)
Theorem C89_control_net_mesh : forall (s : NurbsSurface R) (m : Mesh R) (a : AMesh R), reach m -> shows m a ->
  1 <= ns_nbU s -> 1 <= ns_nbV s -> vsize (ns_points s) = ns_nbU s * ns_nbV s ->
  let cells := net_cells (ns_nbU s) (ns_nbV s) in
  exists m' ts, to_controlpoints_mesh s m = Ok m' /\ reach m' /\ len cells = (ns_nbU s - 1) * (ns_nbV s - 1) /\
    shows m' (mkA (flat_map (net_quad s) cells) ts (acolor a)) /\ cuts 0 (length cells) ts /\
    surface m' = Ok (sumR (map (best_area s) cells)).
Proof. exact control_net_ok. Qed.
Print Assumptions C89_control_net_mesh.
Example C89_case : exists s, nf_create_torus 5%R 2%R ns_new = Ok s /\ 1 <= ns_nbU s /\ 1 <= ns_nbV s /\ vsize (ns_points s) = ns_nbU s * ns_nbV s.
Proof.
  destruct (torus_exact 5 2 ns_new) as [s [E [V _]]]. exists s. split; [exact E|]. destruct V as (V & _ & (CU & _) & (CV & _) & _). repeat split; lia || exact V.
Qed.
