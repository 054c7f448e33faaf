(** C53, C57: exactly which curves and surfaces keep their shape under degree elevation.  Only statements. *)
From Coq Require Import ZArith List Bool Reals Lra Lia.
From Verif Require Import Base Num MGeometry MNurbs MNurbsSurface MNurbsFactory SGeom SNurbs SSurface LNurbsEx LElev LElev2.
Import ListNotations.
Open Scope Z_scope.

(** C53.  True is an honest answer exactly for degrees 1 and 2 and interior knots repeated at most [degree] times. *)
Theorem C53_honest_exactly_when : forall c : NurbsCurve R, valid c ->
  ((exists c', nc_degree_elevation c = Ok (true, c') /\ forall t, (0 <= t <= 1)%R -> point_of (nc_evaluate c' t) = point_of (nc_evaluate c t)) <->
   ((nc_degree c = 1 \/ nc_degree c = 2) /\ regular (nc_knots c) (nc_degree c) (vsize (nc_points c)))).
Proof. exact elevation_keeps_iff. Qed.
Print Assumptions C53_honest_exactly_when.
(** Every other valid curve of degree below 3 is lost: no point of it can be evaluated any more; or, for degree 2
    and a first knot repeated more than three times, the call may divide by zero instead. *)
Theorem C53_lost_otherwise : forall c : NurbsCurve R, valid c -> nc_degree c < 3 ->
  nc_degree c = 0 \/ ~ regular (nc_knots c) (nc_degree c) (vsize (nc_points c)) ->
  (nc_degree c = 2 /\ kn (nc_knots c) 3 = 0%R /\ nc_degree_elevation c = Err FDivZero) \/
  exists c', nc_degree_elevation c = Ok (true, c') /\ forall t, nc_evaluate c' t = Err FAssert.
Proof. exact elevation_lost. Qed.
Print Assumptions C53_lost_otherwise.
Theorem C53_division_by_zero : exists c : NurbsCurve R, valid c /\ nc_degree c = 2 /\ nc_degree_elevation c = Err FDivZero.
Proof. exact (ex_intro _ zeros5 (conj zeros5_valid (conj eq_refl zeros5_div))). Qed.
Print Assumptions C53_division_by_zero.
(** A triple interior knot. *)
Example C53_lost_case : valid halves3 /\ nc_degree halves3 = 2 /\ ~ regular (nc_knots halves3) 2 6 /\
  exists c', nc_degree_elevation halves3 = Ok (true, c') /\ forall t, nc_evaluate c' t = Err FAssert.
Proof. exact (conj halves3_valid (conj eq_refl (conj halves3_irregular halves3_lost))). Qed.

(** C57.  The same for surfaces, in either direction. *)
Theorem C57_elevation_u_exactly_when : forall s : NurbsSurface R, svalid s -> ns_degU s < 3 ->
  ((exists s', ns_degree_elevation_u s = Ok (true, s') /\
     forall u v, (0 <= u <= 1)%R -> (0 <= v <= 1)%R -> spoint_of (ns_evaluate s' u v) = spoint_of (ns_evaluate s u v)) <->
   (1 <= ns_degU s /\ regular (ns_knotsU s) (ns_degU s) (ns_nbU s))).
Proof. exact surface_u_keeps_iff. Qed.
Print Assumptions C57_elevation_u_exactly_when.
Theorem C57_elevation_v_exactly_when : forall s : NurbsSurface R, svalid s -> ns_degV s < 3 ->
  ((exists s', ns_degree_elevation_v s = Ok (true, s') /\
     forall u v, (0 <= u <= 1)%R -> (0 <= v <= 1)%R -> spoint_of (ns_evaluate s' u v) = spoint_of (ns_evaluate s u v)) <->
   (1 <= ns_degV s /\ regular (ns_knotsV s) (ns_degV s) (ns_nbV s))).
Proof. exact surface_v_keeps_iff. Qed.
Print Assumptions C57_elevation_v_exactly_when.
Theorem C57_elevation_u_lost : forall s : NurbsSurface R, svalid s -> ns_degU s < 3 ->
  ns_degU s = 0 \/ ~ regular (ns_knotsU s) (ns_degU s) (ns_nbU s) ->
  (ns_degU s = 2 /\ kn (ns_knotsU s) 3 = 0%R /\ ns_degree_elevation_u s = Err FDivZero) \/
  exists s', ns_degree_elevation_u s = Ok (true, s') /\ forall u v, ns_evaluate s' u v = Err FAssert.
Proof. exact lost_u. Qed.
Print Assumptions C57_elevation_u_lost.
Theorem C57_elevation_v_lost : forall s : NurbsSurface R, svalid s -> ns_degV s < 3 ->
  ns_degV s = 0 \/ ~ regular (ns_knotsV s) (ns_degV s) (ns_nbV s) ->
  (ns_degV s = 2 /\ kn (ns_knotsV s) 3 = 0%R /\ ns_degree_elevation_v s = Err FDivZero) \/
  exists s', ns_degree_elevation_v s = Ok (true, s') /\ forall u v, ns_evaluate s' u v = Err FAssert.
Proof. exact lost_v. Qed.
Print Assumptions C57_elevation_v_lost.
(** So C57 is false as stated: a strip over the curve with the triple knot is valid, and is lost. *)
Theorem C57_refuted : exists s s' : NurbsSurface R, ne_extrude halves3 (mkP 0 0 1)%R ns_new = Ok s /\ svalid s /\
  ns_degree_elevation_u s = Ok (true, s') /\ forall u v, ns_evaluate s' u v = Err FAssert.
Proof. exact strip_halves3. Qed.
Print Assumptions C57_refuted.
Example C57_lost_case : exists s, ne_extrude halves3 (mkP 0 0 1)%R ns_new = Ok s /\ svalid s /\ ns_degU s = 2 /\ ns_nbU s = 6.
Proof. destruct (strip_u halves3 halves3_valid) as [s [E [V [D [_ N]]]]]. exists s. auto. Qed.
