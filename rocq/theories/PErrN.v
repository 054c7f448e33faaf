(** C109, C110: points of NURBS curves and surfaces computed in doubles. *)
From Coq Require Import ZArith List Bool Reals Lia Lra.
From Flocq Require Import Core IEEE754.Binary IEEE754.Bits.
From Verif Require Import Base Num MGeometry MNurbs MNurbsSurface MStl MF64 SGeom SNurbs SSurface SF64 SErr SErrN LF64Ord LErr9 LErr10 LErr11.
Import ListNotations.
Open Scope Z_scope.

(** C109. For coordinates up to K and weights between w0 and W, every coordinate of the evaluated point is finite and within
    2^-53 4 K (1 + (13 d + 2) W / w0) of the exact point of the curve the stored doubles stand for, d being the degree. *)
Theorem C109_curve_error : forall (K W w0 : R), moderate K -> moderate W -> (0 < w0 <= W)%R ->
  forall (c : NurbsCurve f64) (t : f64), dvalid c -> coords_within K (nc_points c) -> weights_within w0 W (nc_weights c) -> balanced (nc_degree c) W w0 -> fin t -> (0 <= val t <= 1)%R ->
  exists p c', nc_evaluate c t = Ok (p, c') /\ close_pt p (nurbs_at (val_curve c) (val t)) (nurbs_error (nc_degree c) K W w0).
Proof. exact curve_error. Qed.
Print Assumptions C109_curve_error.
(** The same for surfaces, with the sum of the two degrees. *)
Theorem C109_surface_error : forall (K W w0 : R), moderate K -> moderate W -> (0 < w0 <= W)%R ->
  forall (s : NurbsSurface f64) (u v : f64), dsvalid s -> coords_within K (ns_points s) -> weights_within w0 W (ns_weights s) -> balanced (ns_degU s + ns_degV s) W w0 ->
  fin u -> (0 <= val u <= 1)%R -> fin v -> (0 <= val v <= 1)%R ->
  exists p s', ns_evaluate s u v = Ok (p, s') /\ close_pt p (surf_at (val_surface s) (val u) (val v)) (nurbs_error (ns_degU s + ns_degV s) K W w0).
Proof. exact surface_error. Qed.
Print Assumptions C109_surface_error.
(** With unit weights, as set_equals_weights sets them: within (52 d + 12) 2^-53 K. *)
Theorem C109_curve_unit_weights : forall (K : R) (c : NurbsCurve f64) (t : f64), moderate K -> dvalid c -> coords_within K (nc_points c) -> unit_weights (nc_weights c) -> nc_degree c <= 2 ^ 40 ->
  fin t -> (0 <= val t <= 1)%R ->
  exists p c', nc_evaluate c t = Ok (p, c') /\ close_pt p (nurbs_at (val_curve c) (val t)) (bpow radix2 (-53) * ((52 * IZR (nc_degree c) + 12) * K)).
Proof. exact curve_unit_error. Qed.
Print Assumptions C109_curve_unit_weights.
Theorem C109_surface_unit_weights : forall (K : R) (s : NurbsSurface f64) (u v : f64), moderate K -> dsvalid s -> coords_within K (ns_points s) -> unit_weights (ns_weights s) ->
  ns_degU s + ns_degV s <= 2 ^ 40 -> fin u -> (0 <= val u <= 1)%R -> fin v -> (0 <= val v <= 1)%R ->
  exists p s', ns_evaluate s u v = Ok (p, s') /\ close_pt p (surf_at (val_surface s) (val u) (val v)) (bpow radix2 (-53) * ((52 * IZR (ns_degU s + ns_degV s) + 12) * K)).
Proof. exact surface_unit_error. Qed.
Print Assumptions C109_surface_unit_weights.
(** A cubic with weights 1, 2, 1, 2 and a bilinear patch meet the hypotheses. *)
Example C109_case_curve : exists c, (do c <- nc_set_degree nc_new 3; nc_set_uniform (nc_set_weights (nc_set_points c ex_pts) ex_ws)) = Ok c /\
  dvalid c /\ coords_within 4 (nc_points c) /\ weights_within 1 2 (nc_weights c) /\ balanced (nc_degree c) 2 1 /\ moderate 4 /\ moderate 2.
Proof.
  destruct (build_tight 3 ex_pts ex_ws) as (c & E & V & D & P & Wt & _); [cbn; lia|reflexivity|cbn; lia|]. exists c. split; [exact E|]. split; [exact V|]. rewrite P, Wt, D.
  split; [exact ex_coords|]. split; [exact ex_weights|]. split; [apply ex_balanced; lia|exact ex_moderate].
Qed.
Example C109_case_surface : exists s, (do s <- ns_set_degree ns_new 1 1; do s <- ns_set_uniform_u (ns_set_weights (ns_set_points s ex_pts 2 2) ex_ws); ns_set_uniform_v s) = Ok s /\
  dsvalid s /\ coords_within 4 (ns_points s) /\ weights_within 1 2 (ns_weights s) /\ balanced (ns_degU s + ns_degV s) 2 1.
Proof.
  destruct (sbuild_tight 1 1 2 2 ex_pts ex_ws) as (s & E & V & P & Wt & D1 & D2 & _); [lia|lia|reflexivity|reflexivity|lia|lia|]. exists s. split; [exact E|]. split; [exact V|]. rewrite P, Wt, D1, D2.
  split; [exact ex_coords|]. split; [exact ex_weights|]. apply ex_balanced. lia.
Qed.

(** C110. In doubles a curve with unit weights starts and ends exactly on its first and last control points, without any rounding. *)
Theorem C110_curve_ends : forall (c : NurbsCurve f64) (t : f64), dvalid c -> tight (dvals (nc_knots c)) (nc_degree c) (vsize (nc_points c)) ->
  finite_points (nc_points c) -> unit_weights (nc_weights c) -> fin t -> (val t = 0 \/ val t = 1)%R ->
  exists p c' q, nc_evaluate c t = Ok (p, c') /\ vget (nc_points c) (end_index t (vsize (nc_points c))) = Ok q /\ same_place p q.
Proof. exact curve_end. Qed.
Print Assumptions C110_curve_ends.
(** The corners of a surface are its corner control points. *)
Theorem C110_surface_corners : forall (s : NurbsSurface f64) (u v : f64), dsvalid s ->
  tight (dvals (ns_knotsU s)) (ns_degU s) (ns_nbU s) -> tight (dvals (ns_knotsV s)) (ns_degV s) (ns_nbV s) -> finite_points (ns_points s) -> unit_weights (ns_weights s) ->
  fin u -> (val u = 0 \/ val u = 1)%R -> fin v -> (val v = 0 \/ val v = 1)%R ->
  exists p s' q, ns_evaluate s u v = Ok (p, s') /\ vget (ns_points s) (end_index u (ns_nbU s) + ns_nbU s * end_index v (ns_nbV s)) = Ok q /\ same_place p q.
Proof. exact surface_corner. Qed.
Print Assumptions C110_surface_corners.
(** Curves built through the interface. *)
Theorem C110_built_curve : forall (p : Z) (pts : list dpt) (ws : list f64), 0 <= p < vsize pts -> vsize ws = vsize pts -> vsize pts <= 2 ^ 53 -> finite_points pts -> unit_weights ws ->
  exists c, (do c <- nc_set_degree nc_new p; nc_set_uniform (nc_set_weights (nc_set_points c pts) ws)) = Ok c /\
    (exists a b c', vget pts 0 = Ok a /\ nc_evaluate c (f64_ofZ 0) = Ok (b, c') /\ same_place b a) /\
    (exists a b c', vget pts (vsize pts - 1) = Ok a /\ nc_evaluate c (f64_ofZ 1) = Ok (b, c') /\ same_place b a).
Proof. exact built_ends. Qed.
Print Assumptions C110_built_curve.
Example C110_case_curve : finite_points ex_pts /\ unit_weights (repeat (f64_ofZ 1) 4) /\ exists c, (do c <- nc_set_degree nc_new 2; nc_set_uniform (nc_set_weights (nc_set_points c ex_pts) (repeat (f64_ofZ 1) 4))) = Ok c /\
  dvalid c /\ tight (dvals (nc_knots c)) (nc_degree c) (vsize (nc_points c)).
Proof.
  split; [exact ex_finite|]. split; [apply ex_units|]. destruct (build_tight 2 ex_pts (repeat (f64_ofZ 1) 4)) as (c & E & V & D & P & Wt & T); [cbn; lia|reflexivity|cbn; lia|].
  exists c. split; [exact E|]. split; [exact V|]. rewrite D, P. exact T.
Qed.
Example C110_case_surface : exists s, (do s <- ns_set_degree ns_new 1 1; do s <- ns_set_uniform_u (ns_set_weights (ns_set_points s ex_pts 2 2) (repeat (f64_ofZ 1) 4)); ns_set_uniform_v s) = Ok s /\
  dsvalid s /\ tight (dvals (ns_knotsU s)) (ns_degU s) (ns_nbU s) /\ tight (dvals (ns_knotsV s)) (ns_degV s) (ns_nbV s) /\ finite_points (ns_points s) /\ unit_weights (ns_weights s).
Proof.
  destruct (sbuild_tight 1 1 2 2 ex_pts (repeat (f64_ofZ 1) 4)) as (s & E & V & P & Wt & D1 & D2 & N1 & N2 & T1 & T2); [lia|lia|reflexivity|reflexivity|lia|lia|]. exists s. split; [exact E|]. split; [exact V|].
  rewrite D1, D2, N1, N2, P, Wt. split; [exact T1|]. split; [exact T2|]. split; [exact ex_finite|apply ex_units].
Qed.
(** With equal weights other than 1 this is lost: the segment from x = 0.1 to x = 1 with both weights 3 does not start at 0.1. *)
Theorem C110_equal_weights_refuted : exists c p c', seg3 = Ok c /\ dvalid c /\ vget (nc_points c) 0 = Ok (mkP tenth (f64_ofZ 0) (f64_ofZ 0)) /\ nc_weights c = [f64_ofZ 3; f64_ofZ 3] /\
  nc_evaluate c (f64_ofZ 0) = Ok (p, c') /\ f64_eqb (px p) tenth = false.
Proof. exact weighted_end_refuted. Qed.
Print Assumptions C110_equal_weights_refuted.
