(** Properties C90-C92: triangle / segment intersection, triangle / plane cuts, splitting a triangle by a triangle. *)
From Coq Require Import ZArith List Bool Reals Lra.
From Verif Require Import Base Num MGeometry MKernel MMesh MMeshRun MMeasure SMesh SReach SGeom SGeom2 SMeasure LGeomEx LGeom3 LSplitTri.
Import ListNotations.
Open Scope R_scope.

(** C90, in full: Triangle3::intersect_with(Segment3) answers true exactly when the segment and the
    triangle share a point. False: C90_soundness_refuted and C90_completeness_refuted. Proved: the exact
    outcome for every proper triangle, and the full claim when both end points are off the plane of the
    triangle and the segment meets the line of its second edge only inside the triangle. *)
Theorem C90_outcome : forall (t : Triangle3 R) (p q : pt3), tri_proper t ->
  exists o b, tri_intersect_seg t (mkSeg p q) = Ok (o, b) /\
  match o with
  | Some x => tside t p * tside t q < 0 /\ between x p q /\ in_plane_of (t1 t) (t2 t) (t3 t) x /\
              (b = true <-> in_tri t x \/ on_line x (t2 t) (t3 t))
  | None => 0 <= tside t p * tside t q /\ b = false
  end.
Proof. exact tri_seg_outcome. Qed.
Print Assumptions C90_outcome.
Theorem C90_exact_in_general_position_partial : forall (t : Triangle3 R) (p q : pt3), tri_proper t ->
  ~ in_plane_of (t1 t) (t2 t) (t3 t) p -> ~ in_plane_of (t1 t) (t2 t) (t3 t) q ->
  (forall x, on_segment x p q -> on_line x (t2 t) (t3 t) -> in_tri t x) ->
  exists o b, tri_intersect_seg t (mkSeg p q) = Ok (o, b) /\
    (b = true <-> exists x, on_segment x p q /\ in_tri t x) /\
    (forall x, on_segment x p q -> in_tri t x -> o = Some x).
Proof. exact tri_seg_general. Qed.
Print Assumptions C90_exact_in_general_position_partial.
Theorem C90_soundness_refuted : exists (t : Triangle3 R) (p q x : pt3), tri_proper t /\
  tri_intersect_seg t (mkSeg p q) = Ok (Some x, true) /\ forall y, on_segment y p q -> ~ in_tri t y.
Proof. exact tri_seg_unsound. Qed.
Print Assumptions C90_soundness_refuted.
Theorem C90_completeness_refuted : exists (t : Triangle3 R) (p q : pt3), tri_proper t /\
  tri_intersect_seg t (mkSeg p q) = Ok (None, false) /\ in_tri t q /\ ~ in_plane_of (t1 t) (t2 t) (t3 t) p.
Proof. exact tri_seg_incomplete. Qed.
Print Assumptions C90_completeness_refuted.
Theorem C90_flat_triangle_divides_by_zero : forall (t : Triangle3 R) (s : Segment3 R), ~ tri_proper t -> tri_intersect_seg t s = Err FDivZero.
Proof. exact tri_seg_degenerate. Qed.
Print Assumptions C90_flat_triangle_divides_by_zero.
Example C90_case : let t := unit_tri in let p := mkP (1/4) (1/4) 1 in let q := mkP (1/4) (1/4) (-1) in
  tri_proper t /\ ~ in_plane_of (t1 t) (t2 t) (t3 t) p /\ ~ in_plane_of (t1 t) (t2 t) (t3 t) q /\
  (forall x, on_segment x p q -> on_line x (t2 t) (t3 t) -> in_tri t x) /\ exists x, on_segment x p q /\ in_tri t x.
Proof. exact tri_seg_case. Qed.

(** C91. *)
Theorem C91_cut_exact : forall (t : Triangle3 R) (pl : Plane3 R),
  cutted_by t pl = true <-> (exists x, in_tri t x /\ 0 < side pl x) /\ (exists y, in_tri t y /\ side pl y < 0).
Proof. exact cut_exact. Qed.
Print Assumptions C91_cut_exact.
Example C91_case : cutted_by unit_tri (mkPlane 1 0 0 (- (1/2))) = true /\ cutted_by unit_tri (mkPlane 1 0 0 0) = false.
Proof. exact cut_case. Qed.

(** C92, in full: split_triangle(i, t) cuts triangle i along t: it stops with an error on no input, keeps the
    surface, and leaves no piece lying on both sides of t. False: C92_nothing_split_refuted,
    C92_assertion_refuted, C92_surface_refuted. Proved: every outcome. *)
Theorem C92_outcomes_partial : forall (m : Mesh R) (i : Z) (ts tA : Triangle3 R),
  get_triangle m i = Ok tA -> tri_proper tA -> tri_proper ts ->
  split_triangle m i ts = Ok m \/
  (split_triangle m i ts = Err FAssert /\ forall x, edge_crossing tA ts x -> ~ in_tri tA x) \/
  exists x, split_triangle m i ts = split_triangle_with_point m i x /\ corner_and_edge tA ts x /\
    (in_tri tA x \/ on_line x (t2 tA) (t3 tA)).
Proof. exact split_triangle_outcome. Qed.
Print Assumptions C92_outcomes_partial.
(** Nothing is ever split unless a corner of the cutting triangle is exactly in the plane of triangle i. *)
Theorem C92_general_position_never_splits : forall (m : Mesh R) (i : Z) (ts tA : Triangle3 R),
  get_triangle m i = Ok tA -> tri_proper tA -> tri_proper ts -> vertices_off tA ts ->
  split_triangle m i ts = Ok m \/ (split_triangle m i ts = Err FAssert /\ forall x, edge_crossing tA ts x -> ~ in_tri tA x).
Proof. exact split_triangle_general. Qed.
Print Assumptions C92_general_position_never_splits.
(** When it does split, at a point of the plane: the three pieces, the volume, and the surface, which is
    kept when the point is in the triangle. *)
Theorem C92_split_at_point : forall (m : Mesh R) (a : AMesh R) (i x y z : Z) (w : pt3), reach m -> shows m a -> (0 <= i)%Z ->
  nth_error (atris a) (Z.to_nat i) = Some ((x, y, z), true) -> in_plane_of (pt a x O3) (pt a y O3) (pt a z O3) w ->
  exists m' a', split_triangle_with_point m i w = Ok m' /\ reach m' /\ shows m' a' /\ averts a' = averts a ++ [w] /\
    atris a' = (let n := len (averts a) in upd (atris a) (Z.to_nat i) (fun t => (fst t, false)) ++ [((x, y, n), true); ((y, z, n), true); ((z, x, n), true)]) /\
    volume m' = volume m /\ (in_triangle (pt a x O3) (pt a y O3) (pt a z O3) w -> surface m' = surface m) /\
    surface m' = Ok (total_area a - area3 (pt a x O3) (pt a y O3) (pt a z O3) +
      (area3 (pt a x O3) (pt a y O3) w + area3 (pt a y O3) (pt a z O3) w + area3 (pt a z O3) (pt a x O3) w)).
Proof. exact split_point_measures. Qed.
Print Assumptions C92_split_at_point.
Theorem C92_nothing_split_refuted : exists (m : Mesh R) (ts tA : Triangle3 R), reach m /\ get_triangle m 0 = Ok tA /\ tri_proper tA /\ tri_proper ts /\
  vertices_off tA ts /\ vertices_off ts tA /\
  (exists x y, x <> y /\ in_tri tA x /\ in_tri ts x /\ in_tri tA y /\ in_tri ts y) /\ split_triangle m 0 ts = Ok m.
Proof. exact split_nothing_ex. Qed.
Print Assumptions C92_nothing_split_refuted.
Theorem C92_assertion_refuted : exists (m : Mesh R) (ts tA : Triangle3 R), reach m /\ get_triangle m 0 = Ok tA /\ tri_proper tA /\ tri_proper ts /\
  vertices_off tA ts /\ split_triangle m 0 ts = Err FAssert.
Proof. exact split_assert_ex. Qed.
Print Assumptions C92_assertion_refuted.
Theorem C92_surface_refuted : exists (m m' : Mesh R) (ts tA : Triangle3 R), reach m /\ get_triangle m 0 = Ok tA /\ tri_proper tA /\ tri_proper ts /\
  split_triangle m 0 ts = Ok m' /\ surface m = Ok (1/2) /\ surface m' = Ok (3/2).
Proof. exact split_grows_ex. Qed.
Print Assumptions C92_surface_refuted.
Example C92_case : tri_proper edge_cutter /\ exists m', split_triangle one_tri 0 edge_cutter = Ok m' /\ nb_triangles m' = 4%Z /\ surface m' = Ok (1/2).
Proof. exact split_inside. Qed.
