(** Properties C29-C37: points, planes, triangles, segments, boxes (exact real arithmetic). *)
From Coq Require Import ZArith List Bool Reals Lra.
From Verif Require Import Base Num MGeometry SGeom LBase LGeom LGeom2 LGeomEx.
Import ListNotations.
Open Scope R_scope.

(** C29. The plane of three non-collinear points: unit normal oriented like (b-a)x(c-a), the three
    points at distance 0, and [distance_to] is the signed Euclidean distance: no point of the plane is
    nearer than its absolute value, and the foot at that distance along the normal is in the plane. *)
Theorem C29_plane_through_three_points : forall a b c : pt3, ~ collinear a b c ->
  exists pl, plane_of_points a b c = Ok pl /\
    len3 (plane_normal pl) = 1 /\
    plane_distance pl a = 0 /\ plane_distance pl b = 0 /\ plane_distance pl c = 0 /\
    0 < dot3 (plane_normal pl) (cross3 (sub3 b a) (sub3 c a)) /\
    forall x, (forall y, on_plane pl y -> Rabs (plane_distance pl x) <= dist3 x y) /\
              (exists f, on_plane pl f /\ dist3 x f = Rabs (plane_distance pl x) /\
                         x = add3 f (scal3 (plane_distance pl x) (plane_normal pl))).
Proof. exact plane_three_points_ok. Qed.
Print Assumptions C29_plane_through_three_points.

(** C29. The three points determine the plane only if they are not collinear: the constructor then
    divides by zero (NaN coefficients in the program). *)
Theorem C29_collinear_points_divide_by_zero : forall a b c : pt3, collinear a b c ->
  plane_of_points a b c = Err FDivZero.
Proof. exact plane_of_points_collinear. Qed.
Print Assumptions C29_collinear_points_divide_by_zero.
Example C29_case : ~ collinear (mkP 0 0 0) (mkP 1 0 0) (mkP 0 1 0) /\ collinear (mkP 0 0 0) (mkP 1 0 0) (mkP 2 0 0).
Proof. split; [exact unit_tri_proper|]. unfold collinear, cross3, sub3, O3. cbn. f_equal; ring. Qed.

(** C30 *)
Theorem C30_projection_is_nearest_point : forall (pl : Plane3 R) (x : pt3), unit_plane pl ->
  on_plane pl (plane_project pl x) /\
  plane_project pl (plane_project pl x) = plane_project pl x /\
  (on_plane pl x -> plane_project pl x = x) /\
  (forall y, on_plane pl y -> dist3 x (plane_project pl x) <= dist3 x y) /\
  (forall y, on_plane pl y -> dist3 x y <= dist3 x (plane_project pl x) -> y = plane_project pl x).
Proof. exact plane_project_correct. Qed.
Print Assumptions C30_projection_is_nearest_point.
Example C30_case : unit_plane (mkPlane (3/5) 0 (4/5) (-2)).
Proof. unfold unit_plane. cbn. field. Qed.

(** C31. The function never fails; true exactly when the end points are strictly on opposite sides,
    and then the point is on the plane and strictly inside the segment. *)
Theorem C31_plane_segment_exact : forall (pl : Plane3 R) (p q : pt3),
  exists o, plane_intersect_seg pl (mkSeg p q) = Ok o /\
  match o with
  | Some x => side pl p * side pl q < 0 /\ on_plane pl x /\ exists t, 0 < t < 1 /\ x = lerp3 p q t
  | None => ~ (side pl p * side pl q < 0)
  end.
Proof. exact plane_seg_exact. Qed.
Print Assumptions C31_plane_segment_exact.
Example C31_case : side (mkPlane 0 0 1 0) (mkP 0 0 (-1)) * side (mkPlane 0 0 1 0) (mkP 5 5 2) < 0.
Proof. unfold side. cbn. Lra.lra. Qed.

(** C32. False of the code: the function answers true without ever writing the line. *)
Theorem C32_refuted : exists (p q : Plane3 R) (l l' : Line3 R),
  plane_intersect_plane p q l = (true, l') /\ ~ on_plane p (l1 l').
Proof. exact plane_plane_wrong. Qed.
Print Assumptions C32_refuted.
(** C32. What does hold: the line is left exactly as it was given, and the answer is true exactly when
    the normals are not parallel (up to the tolerance 1e-8 on the norm of their cross product). *)
Theorem C32_line_never_written : forall (p q : Plane3 R) (l : Line3 R), snd (plane_intersect_plane p q l) = l.
Proof. exact plane_plane_keeps_line. Qed.
Print Assumptions C32_line_never_written.
Theorem C32_answer_partial : forall (p q : Plane3 R) (l : Line3 R),
  fst (plane_intersect_plane p q l) = true <->
  (1 / 100000000) * (1 / 100000000) <= dot3 (cross3 (plane_normal p) (plane_normal q)) (cross3 (plane_normal p) (plane_normal q)).
Proof. exact plane_plane_bool. Qed.
Print Assumptions C32_answer_partial.

(** C33. False of the code as stated: *)
Theorem C33_refuted : exists (t : Triangle3 R) (x : pt3), tri_proper t /\
  in_plane_of (t1 t) (t2 t) (t3 t) x /\ tri_contains t x = true /\ ~ in_tri t x.
Proof. exact contains_wrong. Qed.
Print Assumptions C33_refuted.
(** C33. Exact behaviour on the plane of a proper triangle: inside, or anywhere on the infinite line
    through the second and third corner. *)
Theorem C33_contains_characterised : forall (p q r x : pt3), ~ collinear p q r -> in_plane_of p q r x ->
  (tri_contains (mkTri p q r) x = true <-> in_triangle p q r x \/ on_line x q r).
Proof. exact contains_exact. Qed.
Print Assumptions C33_contains_characterised.
(** C33. Hence exact for every coplanar point that is not on that line. *)
Theorem C33_contains_off_line_partial : forall (p q r x : pt3), ~ collinear p q r -> in_plane_of p q r x ->
  ~ on_line x q r -> (tri_contains (mkTri p q r) x = true <-> in_triangle p q r x).
Proof. exact contains_off_line. Qed.
Print Assumptions C33_contains_off_line_partial.
Example C33_case : ~ on_line (mkP 0 0 0) (mkP 1 0 0) (mkP 0 1 0) /\ in_plane_of (mkP 0 0 0) (mkP 1 0 0) (mkP 0 1 0) (mkP 5 7 0).
Proof.
  split.
  - intros [t E]. unfold lerp3, add3, sub3, scal3 in E. cbn in E. injection E as E1 E2 E3. Lra.lra.
  - exists (-11), 5, 7. split; [ring|]. unfold add3, scal3. cbn. f_equal; ring.
Qed.

(** C34. False of the code in both directions. *)
Theorem C34_soundness_refuted : exists A B : Triangle3 R,
  tri_intersect_tri A B = Ok true /\ ~ (exists x, in_tri A x /\ in_tri B x).
Proof. exact tri_tri_unsound. Qed.
Print Assumptions C34_soundness_refuted.
Theorem C34_completeness_refuted : exists A B : Triangle3 R, tri_proper A /\ tri_proper B /\
  tri_intersect_tri A B = Ok false /\ (exists x, in_tri A x /\ in_tri B x).
Proof. exact tri_tri_incomplete. Qed.
Print Assumptions C34_completeness_refuted.
(** C34. Complete when no corner of either triangle lies in the plane of the other. *)
Theorem C34_complete_partial : forall A B : Triangle3 R,
  tri_proper A -> tri_proper B -> vertices_off A B -> vertices_off B A ->
  (exists x, in_tri A x /\ in_tri B x) -> tri_intersect_tri A B = Ok true.
Proof. exact tri_tri_complete. Qed.
Print Assumptions C34_complete_partial.
(** C34. A positive answer always comes with a point of one triangle on an edge of it, which is in the
    other triangle or on the other's line P2 P3. *)
Theorem C34_sound_partial : forall A B : Triangle3 R, tri_intersect_tri A B = Ok true ->
  exists X Y, ((X = A /\ Y = B) \/ (X = B /\ Y = A)) /\
  exists a b x, tri_edge X a b /\ on_segment x a b /\ in_tri X x /\ (in_tri Y x \/ on_line x (t2 Y) (t3 Y)).
Proof. exact tri_tri_sound. Qed.
Print Assumptions C34_sound_partial.
(** C34. Exact in general position. *)
Theorem C34_exact_in_general_position_partial : forall A B : Triangle3 R,
  tri_proper A -> tri_proper B -> vertices_off A B -> vertices_off B A ->
  avoids_line23 A B -> avoids_line23 B A ->
  exists b, tri_intersect_tri A B = Ok b /\ (b = true <-> exists x, in_tri A x /\ in_tri B x).
Proof. exact tri_tri_general. Qed.
Print Assumptions C34_exact_in_general_position_partial.
Example C34_case : tri_proper unit_tri /\ tri_proper gpB /\ vertices_off unit_tri gpB /\ vertices_off gpB unit_tri /\
  avoids_line23 unit_tri gpB /\ avoids_line23 gpB unit_tri /\ exists x, in_tri unit_tri x /\ in_tri gpB x.
Proof. exact gp_example. Qed.

(** C35. False of the code: the point may miss the second segment, even the line carrying it. *)
Theorem C35_refuted : exists (A B : Segment3 R) (x : pt3), seg_intersect A B = Ok (Some x) /\
  ~ on_line x (s1 B) (s2 B) /\ (forall y, on_segment y (s1 A) (s2 A) -> ~ on_segment y (s1 B) (s2 B)).
Proof. exact seg_seg_wrong. Qed.
Print Assumptions C35_refuted.
(** C35. What does hold: the point is on the first segment and is the foot, on the first line, of the
    common perpendicular with the second line. *)
Theorem C35_point_on_first_segment_partial : forall (P1 P2 P3 P4 x : pt3),
  seg_intersect (mkSeg P1 P2) (mkSeg P3 P4) = Ok (Some x) ->
  on_segment x P1 P2 /\
  exists y, on_line y P3 P4 /\ dot3 (sub3 x y) (sub3 P2 P1) = 0 /\ dot3 (sub3 x y) (sub3 P4 P3) = 0.
Proof. exact seg_intersect_closest. Qed.
Print Assumptions C35_point_on_first_segment_partial.
(** C35. Segments that do meet, and are long enough and not nearly parallel, are reported with their
    common point. *)
Theorem C35_common_point_found_partial : forall (P1 P2 P3 P4 x : pt3),
  let eps := 1 / 10000000000 in
  eps * eps <= dot3 (sub3 P2 P1) (sub3 P2 P1) -> eps * eps <= dot3 (sub3 P4 P3) (sub3 P4 P3) ->
  eps <= dot3 (cross3 (sub3 P2 P1) (sub3 P4 P3)) (cross3 (sub3 P2 P1) (sub3 P4 P3)) ->
  on_segment x P1 P2 -> on_line x P3 P4 ->
  seg_intersect (mkSeg P1 P2) (mkSeg P3 P4) = Ok (Some x).
Proof. exact seg_intersect_finds. Qed.
Print Assumptions C35_common_point_found_partial.
Example C35_case : on_segment (mkP (1/2) 0 0) (mkP 0 0 0) (mkP 1 0 0) /\ on_line (mkP (1/2) 0 0) (mkP (1/2) (-1) 0) (mkP (1/2) 1 0) /\
  seg_intersect (mkSeg (mkP 0 0 0) (mkP 1 0 0)) (mkSeg (mkP (1/2) (-1) 0) (mkP (1/2) 1 0)) = Ok (Some (mkP (1/2) 0 0)).
Proof.
  assert (on_segment (mkP (1/2) 0 0) (mkP 0 0 0) (mkP 1 0 0)) as H1
    by (exists (1/2); split; [Lra.lra|unfold lerp3, add3, sub3, scal3; cbn; f_equal; field]).
  assert (on_line (mkP (1/2) 0 0) (mkP (1/2) (-1) 0) (mkP (1/2) 1 0)) as H2
    by (exists (1/2); unfold lerp3, add3, sub3, scal3; cbn; f_equal; field).
  split; [exact H1|]. split; [exact H2|].
  apply (C35_common_point_found_partial _ _ _ _ _); try assumption; unfold dot3, cross3, sub3; cbn; Lra.lra.
Qed.

(** C36. The box after adding the points [l] is the smallest axis-aligned box containing them ... *)
Theorem C36_box_is_smallest : forall l : list pt3, l <> [] ->
  let b := fold_left box_add l box_empty in
  (forall x, In x l -> in_box (box_lo b) (box_hi b) x) /\
  (forall lo hi, (forall x, In x l -> in_box lo hi x) -> in_box lo hi (box_lo b) /\ in_box lo hi (box_hi b)).
Proof. exact box_smallest. Qed.
Print Assumptions C36_box_is_smallest.
(** ... whatever the order or multiplicity in which they are added. *)
Theorem C36_box_order_independent : forall l l' : list pt3, l <> [] -> (forall x, In x l <-> In x l') ->
  fold_left box_add l box_empty = fold_left box_add l' box_empty.
Proof. exact box_of_same. Qed.
Print Assumptions C36_box_order_independent.
(** C36. Two (non-inverted) boxes intersect exactly when they share a point; the test is symmetric. *)
Theorem C36_intersect_exact : forall a b : BBox3 R,
  in_box (box_lo a) (box_hi a) (box_lo a) -> in_box (box_lo b) (box_hi b) (box_lo b) ->
  box_intersect a b = box_intersect b a /\
  (box_intersect a b = true <-> exists x, in_box (box_lo a) (box_hi a) x /\ in_box (box_lo b) (box_hi b) x).
Proof. exact box_intersect_exact. Qed.
Print Assumptions C36_intersect_exact.
Example C36_case : let b := mkBox (-1) 0 0 1 2 0 true in in_box (box_lo b) (box_hi b) (box_lo b).
Proof. unfold in_box, box_lo, box_hi. cbn. Lra.lra. Qed.
(** C36. Finding: a box to which nothing was added behaves like the box of the single point (0,0,0). *)
Theorem C36_empty_box_acts_as_origin : forall b : BBox3 R, in_box (box_lo b) (box_hi b) (box_lo b) ->
  (box_intersect box_empty b = true <-> in_box (box_lo b) (box_hi b) (mkP 0 0 0)).
Proof. exact box_empty_origin. Qed.
Print Assumptions C36_empty_box_acts_as_origin.

(** C37 *)
Theorem C37_point_algebra : forall p q : pt3,
  dot3 (cross p q) p = 0 /\ dot3 (cross p q) q = 0 /\
  dot3 (cross p q) (cross p q) = dot3 p p * dot3 q q - dot3 p q * dot3 p q /\
  cross p q = scal3 (-1) (cross q p) /\
  norm p = Ok (len3 p) /\ norm_square p = len3 p * len3 p /\
  distance_square p q = dist3 p q * dist3 p q /\
  (exists n s, norm p = Ok n /\ norm q = Ok s /\ exists k, norm (padd p q) = Ok k /\ k <= n + s) /\
  (forall k, norm (pmul p k) = Ok (Rabs k * len3 p)) /\
  (norm p = Ok 0 <-> p = P0) /\
  (p <> P0 -> exists u, normalized p = Ok u /\ normalize p = Ok u /\ norm u = Ok 1 /\ p = scal3 (len3 p) u) /\
  (normalized P0 = Err FDivZero).
Proof. exact point_algebra. Qed.
Print Assumptions C37_point_algebra.
Example C37_case : mkP 3 4 0 <> P0 /\ len3 (mkP 3 4 0) = 5.
Proof.
  split; [intros H; injection H as H1 H2; Lra.lra|]. unfold len3, dot3. cbn.
  replace (3 * 3 + 4 * 4 + 0 * 0) with (5 * 5) by ring. apply sqrt_square. Lra.lra.
Qed.
