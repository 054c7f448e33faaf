(** The clauses of C36, C42, C43, C44, C45, C54 and C56 about the double arithmetic of the machine. *)
From Coq Require Import ZArith List Bool Reals Lra Lia.
From Flocq Require Import Core IEEE754.Binary IEEE754.Bits IEEE754.BinarySingleNaN.
From Verif Require Import Base Num MGeometry MNurbs MNurbsSurface MStl MF64 SGeom SNurbs SF64 LBase LF64 LF64Ord LF64Arith LBoxF64 LKnotF64 LEvalT LCurveF64 LUniformF64 LPolyF64 LSurfF64.
Import ListNotations.
Open Scope Z_scope.

(** C36. Boxes of doubles that are not NaN; infinities are allowed. *)
Theorem C36_smallest_box_double : forall l : list dpt, l <> [] -> (forall p, In p l -> no_nan_pt p) ->
  let b := fold_left box_add l box_empty in
  (forall x, In x l -> in_dbox (dbox_lo b) (dbox_hi b) x) /\
  (forall lo hi, (forall x, In x l -> in_dbox lo hi x) -> in_dbox lo hi (dbox_lo b) /\ in_dbox lo hi (dbox_hi b)).
Proof. exact dbox_smallest. Qed.
Print Assumptions C36_smallest_box_double.
Theorem C36_any_order_double : forall l l' : list dpt, l <> [] -> (forall p, In p l -> no_nan_pt p) -> (forall x, In x l <-> In x l') ->
  deq_pt (dbox_lo (fold_left box_add l box_empty)) (dbox_lo (fold_left box_add l' box_empty)) /\
  deq_pt (dbox_hi (fold_left box_add l box_empty)) (dbox_hi (fold_left box_add l' box_empty)).
Proof. exact dbox_order. Qed.
Print Assumptions C36_any_order_double.
Theorem C36_intersect_double : forall a b : BBox3 f64,
  in_dbox (dbox_lo a) (dbox_hi a) (dbox_lo a) -> in_dbox (dbox_lo b) (dbox_hi b) (dbox_lo b) ->
  box_intersect a b = box_intersect b a /\
  (box_intersect a b = true <-> exists x, in_dbox (dbox_lo a) (dbox_hi a) x /\ in_dbox (dbox_lo b) (dbox_hi b) x).
Proof. exact dbox_intersect_exact. Qed.
Print Assumptions C36_intersect_double.
Example C36_case_double : forall p, In p [mkP (f64_ofZ 1) (f64_ofZ 2) (f64_ofZ 3); mkP (f64_ofZ (-4)) (f64_ofZ 5) (f64_ofZ 0)] -> no_nan_pt p.
Proof. intros p [<-|[<-|[]]]; unfold no_nan_pt, no_nan; vm_compute; auto. Qed.
Example C36_boxes_double : let b := fold_left box_add [mkP (f64_ofZ 1) (f64_ofZ 2) (f64_ofZ 3); mkP (f64_ofZ (-4)) (f64_ofZ 5) (f64_ofZ 0)] box_empty in
  in_dbox (dbox_lo b) (dbox_hi b) (dbox_lo b).
Proof. unfold in_dbox, dle. vm_compute. repeat split. Qed.

(** C42. Finite sorted knots whose range does not overflow: the result is finite, sorted, from 0 to 1, each knot is the affine
    image with the difference, the range and the quotient rounded, and calling set_knots again changes no value. *)
Theorem C42_set_knots_double : forall (c : NurbsCurve f64) (ks : list f64) (k0 kl : f64),
  Forall (fun k : f64 => fin64 k = true) ks -> sorted (dvals ks) -> vget ks 0 = Ok k0 -> vget ks (vsize ks - 1) = Ok kl -> f64_ltb k0 kl = true ->
  fin64 (b64_minus mode_NE kl k0) = true ->
  exists c' v, nc_set_knots c ks = Ok c' /\ v = dvals (nc_knots c') /\ Forall (fun k : f64 => fin64 k = true) (nc_knots c') /\ vsize v = vsize ks /\
    sorted v /\ kn v 0 = 0%R /\ kn v (vsize ks - 1) = 1%R /\ Forall (fun k => 0 <= k <= 1)%R v /\
    (forall i, 0 <= i < vsize ks -> kn v i = round64 (round64 (kn (dvals ks) i - V64 k0) / round64 (V64 kl - V64 k0))) /\
    exists c'', nc_set_knots c' (nc_knots c') = Ok c'' /\ dvals (nc_knots c'') = v.
Proof. exact set_knots_double. Qed.
Print Assumptions C42_set_knots_double.
(** When the range overflows the last knot becomes NaN: the promise "never NaN" fails for such knots. *)
Theorem C42_overflow_gives_nan : forall (c : NurbsCurve f64) (ks : list f64) (k0 kl : f64),
  Forall (fun k : f64 => fin64 k = true) ks -> sorted (dvals ks) -> vget ks 0 = Ok k0 -> vget ks (vsize ks - 1) = Ok kl ->
  fin64 (b64_minus mode_NE kl k0) = false -> exists c' (y : f64), nc_set_knots c ks = Ok c' /\ vget (nc_knots c') (vsize ks - 1) = Ok y /\ nan64 y = true.
Proof. exact set_knots_overflow. Qed.
Print Assumptions C42_overflow_gives_nan.
Theorem C42_never_nan_refuted : exists (ks : list f64) (k0 kl : f64) (c' : NurbsCurve f64) (y : f64),
  Forall (fun k : f64 => fin64 k = true) ks /\ sorted (dvals ks) /\ vget ks 0 = Ok k0 /\ vget ks (vsize ks - 1) = Ok kl /\ f64_ltb k0 kl = true /\
  nc_set_knots nc_new ks = Ok c' /\ vget (nc_knots c') (vsize ks - 1) = Ok y /\ nan64 y = true.
Proof. exact never_nan_refuted. Qed.
Print Assumptions C42_never_nan_refuted.
Example C42_case_double : let ks := [f64_ofZ 0; f64_ofZ 0; f64_ofZ 1; f64_ofZ 3; f64_ofZ 3] in
  Forall (fun k : f64 => fin64 k = true) ks /\ sorted (dvals ks) /\ f64_ltb (f64_ofZ 0) (f64_ofZ 3) = true /\ fin64 (b64_minus mode_NE (f64_ofZ 3) (f64_ofZ 0)) = true.
Proof. exact knots_case. Qed.

(** C43. The same search on doubles, for every parameter that is not NaN (infinities included). *)
Theorem C43_find_knot_span_double : forall (ks : list f64) (t : f64),
  Forall (fun k : f64 => fin64 k = true) ks -> sorted (dvals ks) -> 2 <= vsize ks ->
  kn (dvals ks) 0 = 0%R -> kn (dvals ks) (vsize ks - 1) = 1%R -> no_nan t ->
  exists i, find_knot_span ks t = Ok i /\ 0 <= i < vsize ks - 1 /\ (kn (dvals ks) i < kn (dvals ks) (i + 1))%R /\
    (fin64 t = true -> (0 <= V64 t <= 1)%R -> (kn (dvals ks) i <= V64 t <= kn (dvals ks) (i + 1))%R) /\
    (f64_ltb t (f64_ofZ 0) = true -> forall j, 0 <= j < i -> kn (dvals ks) j = kn (dvals ks) (j + 1)) /\
    (f64_ltb (f64_ofZ 1) t = true -> forall j, i < j < vsize ks - 1 -> kn (dvals ks) j = kn (dvals ks) (j + 1)).
Proof. exact find_span_double. Qed.
Print Assumptions C43_find_knot_span_double.
(** For NaN the search finds no span. *)
Theorem C43_find_knot_span_nan : forall (ks : list f64) (t : f64), nan64 t = true -> 2 <= vsize ks -> find_knot_span ks t = Ok (-1).
Proof. exact find_span_nan. Qed.
Print Assumptions C43_find_knot_span_nan.

(** C44. In doubles, for every number of points an int can hold. *)
Theorem C44_set_uniform_double : forall c : NurbsCurve f64, 0 <= nc_degree c < nc_nb c -> nc_nb c - nc_degree c <= 2 ^ 53 ->
  exists c', nc_set_uniform c = Ok c' /\ Forall (fun k : f64 => fin64 k = true) (nc_knots c') /\
    clamped (dvals (nc_knots c')) (nc_degree c) (nc_nb c) /\ tight (dvals (nc_knots c')) (nc_degree c) (nc_nb c) /\
    (forall i, nc_degree c <= i <= nc_nb c ->
       kn (dvals (nc_knots c')) i = round64 (IZR (i - nc_degree c) / IZR (nc_nb c - nc_degree c))) /\
    nc_degree c' = nc_degree c /\ nc_weights c' = nc_weights c /\ nc_points c' = nc_points c /\
    nc_nb c' = nc_nb c /\ nc_tp c' = nc_tp c /\ nc_tw c' = nc_tw c.
Proof. exact set_uniform_double. Qed.
Print Assumptions C44_set_uniform_double.
Theorem C44_built_curve_double : forall (p : Z) (pts : list dpt) (ws : list f64),
  0 <= p < vsize pts -> vsize ws = vsize pts -> vsize pts <= 2 ^ 53 ->
  exists c, (do c <- nc_set_degree nc_new p; nc_set_uniform (nc_set_weights (nc_set_points c pts) ws)) = Ok c /\ dvalid c /\
    nc_degree c = p /\ nc_points c = pts /\ nc_weights c = ws.
Proof. exact build_double. Qed.
Print Assumptions C44_built_curve_double.

(** C44 for surfaces, over the reals and in doubles: only the knots of that direction change. *)
Theorem C44_surface_uniform_u : forall s : NurbsSurface R, 0 <= ns_degU s < ns_nbU s ->
  exists ks, ns_set_uniform_u s = Ok (mkNS (ns_degU s) (ns_degV s) (ns_nbU s) (ns_nbV s) (ns_closedU s) (ns_closedV s) ks (ns_knotsV s)
        (ns_weights s) (ns_points s) (ns_tpU s) (ns_tpV s) (ns_twU s) (ns_twV s)) /\
    clamped ks (ns_degU s) (ns_nbU s) /\ tight ks (ns_degU s) (ns_nbU s) /\
    (forall i, ns_degU s <= i <= ns_nbU s -> kn ks i = (IZR (i - ns_degU s) / IZR (ns_nbU s - ns_degU s))%R).
Proof. exact suniform_u_ok. Qed.
Print Assumptions C44_surface_uniform_u.
Theorem C44_surface_uniform_v : forall s : NurbsSurface R, 0 <= ns_degV s < ns_nbV s ->
  exists ks, ns_set_uniform_v s = Ok (mkNS (ns_degU s) (ns_degV s) (ns_nbU s) (ns_nbV s) (ns_closedU s) (ns_closedV s) (ns_knotsU s) ks
        (ns_weights s) (ns_points s) (ns_tpU s) (ns_tpV s) (ns_twU s) (ns_twV s)) /\
    clamped ks (ns_degV s) (ns_nbV s) /\ tight ks (ns_degV s) (ns_nbV s) /\
    (forall i, ns_degV s <= i <= ns_nbV s -> kn ks i = (IZR (i - ns_degV s) / IZR (ns_nbV s - ns_degV s))%R).
Proof. exact suniform_v_ok. Qed.
Print Assumptions C44_surface_uniform_v.
Theorem C44_built_surface_double : forall (du dv nu nv : Z) (pts : list dpt) (ws : list f64),
  0 <= du < nu -> 0 <= dv < nv -> vsize pts = nu * nv -> vsize ws = nu * nv -> nu <= 2 ^ 53 -> nv <= 2 ^ 53 ->
  exists s, (do s <- ns_set_degree ns_new du dv; do s <- ns_set_uniform_u (ns_set_weights (ns_set_points s pts nu nv) ws); ns_set_uniform_v s) = Ok s /\ dsvalid s /\
    ns_points s = pts /\ ns_weights s = ws /\ ns_degU s = du /\ ns_degV s = dv.
Proof. exact sbuild_double. Qed.
Print Assumptions C44_built_surface_double.

(** C45. In doubles evaluate never faults, whatever the points, the weights and the parameter are (NaN excepted), and the
    point does not depend on what earlier calls left in the temporaries. *)
Theorem C45_evaluate_double : forall (c c' : NurbsCurve f64) (t : f64), dvalid c -> dvalid c' -> dsame c c' -> no_nan t ->
  exists p d d', nc_evaluate c t = Ok (p, d) /\ nc_evaluate c' t = Ok (p, d') /\ dsame c d /\ dvalid d.
Proof. exact evaluate_double. Qed.
Print Assumptions C45_evaluate_double.
(** With a NaN parameter it stops on an assertion. *)
Theorem C45_evaluate_nan : forall (c : NurbsCurve f64) (t : f64), dvalid c -> nan64 t = true -> nc_evaluate c t = Err FAssert.
Proof. exact evaluate_double_nan. Qed.
Print Assumptions C45_evaluate_nan.
Example C45_case_double : exists c, dseg = Ok c /\ dvalid c.
Proof. exact dseg_valid. Qed.

(** C54 in doubles.  Up to 2^25 / 10 control points the loop ends, with 10 n or 10 n + 1 points; point number i is the curve
    at a parameter within i 2^-52 of i / (10 n).  Missing: the last control point, see below. *)
Theorem C54_polyline_double_partial : forall c : NurbsCurve f64, dvalid c -> 10 * vsize (nc_points c) <= 2 ^ 25 ->
  let n := vsize (nc_points c) in
  exists l c', nc_to_polyline c = Ok (l, c') /\ dvalid c' /\ dsame c c' /\ (vsize l = 10 * n \/ vsize l = 10 * n + 1) /\
    (forall i, 0 <= i < vsize l -> exists (t : f64) p e, vget l i = Ok p /\ nc_evaluate c t = Ok (p, e) /\ fin64 t = true /\
       (Rabs (V64 t - IZR i / IZR (10 * n)) <= IZR i * bpow radix2 (-52))%R).
Proof. exact polyline_double_spec. Qed.
Print Assumptions C54_polyline_double_partial.
(** Curves with 2, 4, 5, 6 or 10 control points lose their last sample, those with 1, 3, 7, 8 or 9 do not. *)
Theorem C54_small_curves_double : forall c : NurbsCurve f64, dvalid c -> vsize (nc_points c) <= 10 ->
  exists l c', nc_to_polyline c = Ok (l, c') /\
    vsize l = 10 * vsize (nc_points c) + (if existsb (Z.eqb (vsize (nc_points c))) [2; 4; 5; 6; 10] then 0 else 1).
Proof. exact polyline_small. Qed.
Print Assumptions C54_small_curves_double.
(** The polyline of the segment from (0,0,0) to (1,0,0) stays at x < 0.96. *)
Theorem C54_reaches_the_end_refuted : exists c l c', dseg = Ok c /\ dvalid c /\ nc_to_polyline c = Ok (l, c') /\
  vget (nc_points c) 1 = Ok (mkP (f64_ofZ 1) (f64_ofZ 0) (f64_ofZ 0)) /\ vsize l = 20 /\
  forall p, In p l -> f64_ltb (px p) (b64_div mode_NE (f64_ofZ 96) (f64_ofZ 100)) = true.
Proof. exact seg_refuted. Qed.
Print Assumptions C54_reaches_the_end_refuted.

(** C56 in doubles: evaluate never faults on a surface ready to be evaluated, whatever its points and weights, and does not
    depend on the temporaries. *)
Theorem C56_evaluate_double : forall (s s' : NurbsSurface f64) (u v : f64), dsvalid s -> dsvalid s' -> dssame s s' -> no_nan u -> no_nan v ->
  exists p d d', ns_evaluate s u v = Ok (p, d) /\ ns_evaluate s' u v = Ok (p, d') /\ dssame s d /\ dsvalid d.
Proof. exact sevaluate_double. Qed.
Print Assumptions C56_evaluate_double.
Example C56_case_double : exists s, (do s <- ns_set_degree ns_new 1 1; do s <- ns_set_uniform_u (ns_set_weights (ns_set_points s (repeat (mkP (f64_ofZ 1) (f64_ofZ 2) (f64_ofZ 3)) 6) 2 3) (repeat (f64_ofZ 1) 6)); ns_set_uniform_v s) = Ok s /\ dsvalid s.
Proof. destruct (sbuild_double 1 1 2 3 (repeat (mkP (f64_ofZ 1) (f64_ofZ 2) (f64_ofZ 3)) 6) (repeat (f64_ofZ 1) 6)) as (s & E & V & _); [lia|lia|reflexivity|reflexivity|lia|lia|]. exists s. split; [exact E|exact V]. Qed.
