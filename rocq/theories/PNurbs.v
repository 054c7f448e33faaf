(** Properties C42-C55: NURBS curves (exact real arithmetic). *)
From Coq Require Import ZArith List Bool Lia Reals Lra Permutation.
From Verif Require Import Base Num MGeometry MTransform MNurbs MNurbsRace SGeom SNurbs LNurbs LNurbs2 LNurbs3 LNurbs4 LNurbs5 LNurbs6 LNurbsEx.
Import ListNotations.
Open Scope Z_scope.

(** C42. Missing: the same range and order claims in IEEE double arithmetic. *)
Theorem C42_set_knots_normalises_partial : forall (c : NurbsCurve R) (ks : list R),
  sorted ks -> 1 <= vsize ks -> (kn ks 0 < kn ks (vsize ks - 1))%R ->
  exists c', nc_set_knots c ks = Ok c' /\ vsize (nc_knots c') = vsize ks /\
    (forall i, 0 <= i < vsize ks -> kn (nc_knots c') i = ((kn ks i - kn ks 0) / (kn ks (vsize ks - 1) - kn ks 0))%R) /\
    sorted (nc_knots c') /\ kn (nc_knots c') 0 = 0%R /\ kn (nc_knots c') (vsize ks - 1) = 1%R /\
    Forall (fun k => 0 <= k <= 1)%R (nc_knots c') /\
    nc_set_knots c' (nc_knots c') = Ok c'.
Proof. exact set_knots_ok. Qed.
Print Assumptions C42_set_knots_normalises_partial.
(** Constant knot vectors are the only ones for which the scaling divides by zero. *)
Theorem C42_constant_knots_divide_by_zero : forall (c : NurbsCurve R) (ks : list R) (k : R),
  ks <> [] -> (forall x, In x ks -> x = k) -> nc_set_knots c ks = Err FDivZero.
Proof. exact set_knots_constant. Qed.
Print Assumptions C42_constant_knots_divide_by_zero.
Example C42_case : sorted [2; 2; 5; 8]%R /\ (kn [2; 2; 5; 8]%R 0 < kn [2; 2; 5; 8]%R (vsize [2; 2; 5; 8]%R - 1))%R.
Proof.
  split; [|unfold kn, vsize, Z.to_nat, Pos.to_nat; cbn; lra]. intros i j H L. change (vsize [2; 2; 5; 8]%R) with 4 in L.
  assert (forall i, 0 <= i < 4 -> i = 0 \/ i = 1 \/ i = 2 \/ i = 3) as K by (intros; lia).
  destruct (K i ltac:(lia)) as [->|[->|[->| ->]]], (K j ltac:(lia)) as [->|[->|[->| ->]]]; try lia; unfold kn, Z.to_nat, Pos.to_nat; cbn; lra.
Qed.

(** C43. *)
Theorem C43_find_knot_span : forall (ks : list R) (t : R),
  sorted ks -> 2 <= vsize ks -> kn ks 0 = 0%R -> kn ks (vsize ks - 1) = 1%R ->
  exists i, find_knot_span ks t = Ok i /\ 0 <= i < vsize ks - 1 /\ (kn ks i < kn ks (i + 1))%R /\
    ((0 <= t <= 1)%R -> (kn ks i <= t <= kn ks (i + 1))%R) /\
    ((t < 0)%R -> forall j, 0 <= j < i -> kn ks j = kn ks (j + 1)) /\
    ((1 < t)%R -> forall j, i < j < vsize ks - 1 -> kn ks j = kn ks (j + 1)).
Proof. exact find_span_full. Qed.
Print Assumptions C43_find_knot_span.
(** For every list of numbers, sorted or not: no out-of-bounds access, a result that is -1 or a span index. *)
Theorem C43_search_total : forall (ks : list R) (t : R), exists r, find_knot_span ks t = Ok r /\ -1 <= r /\
  (2 <= vsize ks -> r < vsize ks - 1) /\
  (2 <= vsize ks -> (r = -1 /\ forall j, 0 <= j < vsize ks - 1 -> ~ in_span ks j (clamp01 t)) \/
                    (0 <= r /\ in_span ks r (clamp01 t))).
Proof. exact find_knot_span_total. Qed.
Print Assumptions C43_search_total.
Example C43_case : exists c, build 2 ex_pts ex_ws = Ok c /\ sorted (nc_knots c) /\ 2 <= vsize (nc_knots c) /\
  kn (nc_knots c) 0 = 0%R /\ kn (nc_knots c) (vsize (nc_knots c) - 1) = 1%R.
Proof.
  destruct (ex_curve 2 ltac:(lia)) as [c [E [V _]]]. exists c. split; [exact E|]. destruct V as [_ [_ [C _]]].
  destruct (clamped_sorted _ _ _ C) as [S [_ [K0 K1]]]. destruct C as [C1 [C2 _]]. repeat (split; [assumption || lia|]). exact K1.
Qed.

(** C44. *)
Theorem C44_set_uniform_valid : forall c : NurbsCurve R, 0 <= nc_degree c < nc_nb c ->
  exists c', nc_set_uniform c = Ok c' /\
    clamped (nc_knots c') (nc_degree c) (nc_nb c) /\ tight (nc_knots c') (nc_degree c) (nc_nb c) /\
    (forall i, nc_degree c <= i <= nc_nb c ->
       kn (nc_knots c') i = (IZR (i - nc_degree c) / IZR (nc_nb c - nc_degree c))%R) /\
    nc_degree c' = nc_degree c /\ nc_weights c' = nc_weights c /\ nc_points c' = nc_points c /\
    nc_nb c' = nc_nb c /\ nc_tp c' = nc_tp c /\ nc_tw c' = nc_tw c.
Proof. exact set_uniform_ok. Qed.
Print Assumptions C44_set_uniform_valid.
(** A client that sets degree, points and weights and then calls set_uniform has a valid curve. *)
Theorem C44_built_curve_is_valid : forall (p : Z) (pts : list pt3) (ws : list R),
  0 <= p < vsize pts -> vsize ws = vsize pts -> Forall (fun w => 0 < w)%R ws ->
  exists c, (do c <- nc_set_degree nc_new p; nc_set_uniform (nc_set_weights (nc_set_points c pts) ws)) = Ok c /\
    valid c /\ tight (nc_knots c) p (vsize pts) /\ (1 <= p -> regular (nc_knots c) p (vsize pts)) /\
    nc_degree c = p /\ nc_points c = pts /\ nc_weights c = ws.
Proof. exact build_ok. Qed.
Print Assumptions C44_built_curve_is_valid.
Example C44_case : 0 <= 2 < vsize ex_pts /\ vsize ex_ws = vsize ex_pts /\ Forall (fun w => 0 < w)%R ex_ws.
Proof. split; [cbn; lia|]. split; [reflexivity|]. unfold ex_ws. repeat constructor; lra. Qed.

(** C45, C47. Evaluation does not fault, returns the NURBS formula and leaves the curve as it was. *)
Theorem C45_evaluate_never_faults : forall (c : NurbsCurve R) (t : R), valid c -> (0 <= t <= 1)%R ->
  (0 < nurbs_den c t)%R /\
  exists c', nc_evaluate c t = Ok (nurbs_at c t, c') /\ same_data c c' /\ valid c'.
Proof. exact evaluate_nurbs. Qed.
Print Assumptions C45_evaluate_never_faults.
Theorem C47_evaluate_is_nurbs_formula : forall (c : NurbsCurve R) (t : R), valid c -> (0 <= t <= 1)%R ->
  (0 < nurbs_den c t)%R /\
  exists c', nc_evaluate c t = Ok (nurbs_at c t, c') /\ same_data c c' /\ valid c'.
Proof. exact evaluate_nurbs. Qed.
Print Assumptions C47_evaluate_is_nurbs_formula.
Example C45_case : exists c, build 2 ex_pts ex_ws = Ok c /\ valid c.
Proof. destruct (ex_curve 2 ltac:(lia)) as [c [E [V _]]]. exists c. auto. Qed.
(** The middle of the segment from (0,0,0) to (1,0,0). *)
Example C47_case : valid line01 /\ exists c', nc_evaluate line01 (1 / 2)%R = Ok (mkP (1 / 2) 0 0, c')%R.
Proof. exact (conj line01_valid eval_half). Qed.

(** C46. *)
Theorem C46_end_points : forall c : NurbsCurve R, valid c -> tight (nc_knots c) (nc_degree c) (vsize (nc_points c)) ->
  point_of (nc_evaluate c 0%R) = Ok (cp c 0) /\ point_of (nc_evaluate c 1%R) = Ok (cp c (vsize (nc_points c) - 1)).
Proof. exact curve_ends. Qed.
Print Assumptions C46_end_points.
Example C46_case : exists c, build 3 ex_pts ex_ws = Ok c /\ valid c /\ tight (nc_knots c) (nc_degree c) (vsize (nc_points c)).
Proof. destruct (ex_curve 3 ltac:(lia)) as [c [E [V [T [_ [D [P _]]]]]]]. exists c. rewrite D, P. auto. Qed.

(** C48. *)
Theorem C48_affine_invariance : forall (c : NurbsCurve R) (f : pt3 -> pt3) (t : R),
  valid c -> (0 <= t <= 1)%R -> affine3 f ->
  exists p, point_of (nc_evaluate c t) = Ok p /\
            point_of (nc_evaluate (nc_points_ref c (map f (nc_points c))) t) = Ok (f p).
Proof. exact evaluate_affine. Qed.
Print Assumptions C48_affine_invariance.
(** All transforms of the program are affine. *)
Theorem C48_transforms_are_affine : forall (t : pt3) (x y z : R) (m : Mat R) (q : Quat R) (e : Euler R),
  affine3 (translation t) /\ affine3 (scale x y z) /\ affine3 (mat_apply m) /\ affine3 (quat_apply q) /\ affine3 (euler_apply e).
Proof. exact transforms_affine. Qed.
Print Assumptions C48_transforms_are_affine.
Example C48_case : exists c, build 2 ex_pts ex_ws = Ok c /\ valid c.
Proof. exact C45_case. Qed.

(** C49. *)
Theorem C49_convex_hull : forall (c : NurbsCurve R) (t : R) (n : pt3) (d : R), valid c -> (0 <= t <= 1)%R ->
  (forall p, In p (nc_points c) -> dot3 n p <= d)%R ->
  exists p, point_of (nc_evaluate c t) = Ok p /\ (dot3 n p <= d)%R.
Proof. exact evaluate_hull. Qed.
Print Assumptions C49_convex_hull.
Theorem C49_bounding_box : forall (c : NurbsCurve R) (t : R) (lo hi : pt3), valid c -> (0 <= t <= 1)%R ->
  (forall p, In p (nc_points c) -> px lo <= px p <= px hi /\ py lo <= py p <= py hi /\ pz lo <= pz p <= pz hi)%R ->
  exists p, point_of (nc_evaluate c t) = Ok p /\
    (px lo <= px p <= px hi /\ py lo <= py p <= py hi /\ pz lo <= pz p <= pz hi)%R.
Proof. exact evaluate_box. Qed.
Print Assumptions C49_bounding_box.
Example C49_case : forall p, In p ex_pts -> (px O3 <= px p <= px (mkP 4 2 1) /\ py O3 <= py p <= py (mkP 4 2 1) /\ pz O3 <= pz p <= pz (mkP 4 2 1))%R.
Proof. intros p H. unfold ex_pts in H. cbn in H. destruct H as [<-|[<-|[<-|[<-|[]]]]]; cbn; lra. Qed.

(** C50. *)
Theorem C50_insert_knot_keeps_curve : forall (c : NurbsCurve R) (u : R), valid c -> (0 <= u <= 1)%R ->
  exists c', nc_insert_knot c u = Ok c' /\ valid c' /\
    nc_degree c' = nc_degree c /\ vsize (nc_points c') = vsize (nc_points c) + 1 /\
    Permutation (nc_knots c') (u :: nc_knots c) /\
    (tight (nc_knots c) (nc_degree c) (vsize (nc_points c)) -> (0 < u < 1)%R ->
     tight (nc_knots c') (nc_degree c') (vsize (nc_points c'))) /\
    forall t, (0 <= t <= 1)%R -> point_of (nc_evaluate c' t) = point_of (nc_evaluate c t).
Proof. exact insert_knot_keeps. Qed.
Print Assumptions C50_insert_knot_keeps_curve.
Example C50_case : exists c, build 2 ex_pts ex_ws = Ok c /\ valid c /\ (0 <= 1 / 3 <= 1)%R.
Proof. destruct C45_case as [c [E V]]. exists c. split; [exact E|]. split; [exact V|lra]. Qed.

(** C51, C52. [regular]: interior knots repeated at most [degree] times. *)
Theorem C51_elevation_degree_1 : forall c : NurbsCurve R, valid c -> nc_degree c = 1 ->
  regular (nc_knots c) (nc_degree c) (vsize (nc_points c)) ->
  exists c', nc_degree_elevation c = Ok (true, c') /\ valid c' /\ nc_degree c' = 2 /\
    vsize (nc_points c') = 2 * vsize (nc_points c) - 1 /\
    forall t, (0 <= t <= 1)%R -> point_of (nc_evaluate c' t) = point_of (nc_evaluate c t).
Proof. exact elevate_1. Qed.
Print Assumptions C51_elevation_degree_1.
Example C51_case : exists c, build 1 ex_pts ex_ws = Ok c /\ valid c /\ nc_degree c = 1 /\
  regular (nc_knots c) (nc_degree c) (vsize (nc_points c)).
Proof. destruct (ex_curve 1 ltac:(lia)) as [c [E [V [_ [G [D [P _]]]]]]]. exists c. rewrite D, P. auto. Qed.
Theorem C52_elevation_degree_2 : forall c : NurbsCurve R, valid c -> nc_degree c = 2 ->
  regular (nc_knots c) (nc_degree c) (vsize (nc_points c)) ->
  exists c', nc_degree_elevation c = Ok (true, c') /\ valid c' /\ nc_degree c' = 3 /\
    vsize (nc_points c') = vsize (nc_points c) + spans (nc_knots c) /\
    forall t, (0 <= t <= 1)%R -> point_of (nc_evaluate c' t) = point_of (nc_evaluate c t).
Proof. exact elevate_2_spans. Qed.
Print Assumptions C52_elevation_degree_2.
Example C52_case : exists c, build 2 ex_pts ex_ws = Ok c /\ valid c /\ nc_degree c = 2 /\
  regular (nc_knots c) (nc_degree c) (vsize (nc_points c)).
Proof. destruct (ex_curve 2 ltac:(lia)) as [c [E [V [_ [G [D [P _]]]]]]]. exists c. rewrite D, P. auto. Qed.

(** C53. The result false is honest, and true means that the degree grew ... *)
Theorem C53_false_means_unchanged_partial : forall (T : Type) (N : Num T) (c c' : NurbsCurve T),
  nc_degree_elevation c = Ok (false, c') -> c' = c.
Proof. exact @elevation_false. Qed.
Print Assumptions C53_false_means_unchanged_partial.
Theorem C53_true_means_higher_degree_partial : forall (T : Type) (N : Num T) (c c' : NurbsCurve T),
  nc_degree_elevation c = Ok (true, c') -> nc_degree c < 3 /\ nc_degree c' = nc_degree c + 1.
Proof. exact (fun T N c c' H => elevation_true c c' true H eq_refl). Qed.
Print Assumptions C53_true_means_higher_degree_partial.
Theorem C53_high_degrees_refused : forall (T : Type) (N : Num T) (c : NurbsCurve T),
  3 <= nc_degree c -> nc_degree_elevation c = Ok (false, c).
Proof. exact @elevation_refuses. Qed.
Print Assumptions C53_high_degrees_refused.
(** ... but true does not mean that the shape is kept: a valid curve of degree 0, and every valid curve of
    degree 1 with a repeated interior knot, is destroyed (evaluation then violates an assertion). *)
Theorem C53_elevation_honest_refuted : exists c c' p, valid c /\ nc_degree_elevation c = Ok (true, c') /\
  (forall t, (0 <= t <= 1)%R -> point_of (nc_evaluate c t) = Ok p) /\ (forall t, nc_evaluate c' t = Err FAssert).
Proof. exact elevation_lies. Qed.
Print Assumptions C53_elevation_honest_refuted.
Theorem C53_degree_0_destroyed : forall c : NurbsCurve R, valid c -> nc_degree c = 0 ->
  exists c', nc_degree_elevation c = Ok (true, c') /\ nc_points c' = [] /\ nc_degree c' = 1 /\
    forall t, nc_evaluate c' t = Err FAssert.
Proof. exact elevate_0. Qed.
Print Assumptions C53_degree_0_destroyed.
Example C53_case : valid step0 /\ nc_degree step0 = 0.
Proof. exact (conj step0_valid eq_refl). Qed.
Theorem C53_degree_1_repeated_knot_destroyed : forall c : NurbsCurve R, valid c -> nc_degree c = 1 ->
  ~ regular (nc_knots c) 1 (vsize (nc_points c)) ->
  exists c', nc_degree_elevation c = Ok (true, c') /\ forall t, nc_evaluate c' t = Err FAssert.
Proof. exact elevate_1_irregular. Qed.
Print Assumptions C53_degree_1_repeated_knot_destroyed.

(** C54, over the reals.  Missing: double arithmetic, in which the parameter is accumulated. *)
Theorem C54_polyline_partial : forall c : NurbsCurve R, valid c ->
  tight (nc_knots c) (nc_degree c) (vsize (nc_points c)) ->
  let n := vsize (nc_points c) in
  exists l c', nc_to_polyline c = Ok (l, c') /\ same_data c c' /\ vsize l = 10 * n + 1 /\
    (forall i, 0 <= i <= 10 * n -> vget l i = Ok (nurbs_at c (IZR i / IZR (10 * n)))) /\
    vget l 0 = Ok (cp c 0) /\ vget l (10 * n) = Ok (cp c (n - 1)).
Proof. exact polyline_ends. Qed.
Print Assumptions C54_polyline_partial.
Example C54_case : exists c, build 3 ex_pts ex_ws = Ok c /\ valid c /\ tight (nc_knots c) (nc_degree c) (vsize (nc_points c)).
Proof. exact C46_case. Qed.

(** C55. Calls one after the other are right ... *)
Theorem C55_sequential_calls_partial : forall (T : Type) (N : Num T) (c c1 c2 : NurbsCurve T) (ua ub : T) pa pb,
  nc_evaluate c ua = Ok (pa, c1) -> nc_evaluate c1 ub = Ok (pb, c2) ->
  exists x0 na nb x, th_start c ua ub = Ok x0 /\ th_run c (repeat true na ++ repeat false nb) x0 = Ok x /\
    th_ra x = Some (Ok pa) /\ th_rb x = Some (Ok pb).
Proof. exact @race_sequential. Qed.
Print Assumptions C55_sequential_calls_partial.
(** ... but there is a schedule in which both threads get the same wrong point. *)
Theorem C55_concurrent_evaluate_refuted : exists c u p x0 sched x q, valid c /\ (0 <= u <= 1)%R /\
  point_of (nc_evaluate c u) = Ok p /\
  th_start c u u = Ok x0 /\ th_run c sched x0 = Ok x /\ th_ra x = Some (Ok q) /\ th_rb x = Some (Ok q) /\ p <> q.
Proof. exact race_lies. Qed.
Print Assumptions C55_concurrent_evaluate_refuted.
