(** Property C125: point-normal triangles in doubles. *)
From Coq Require Import ZArith List Bool Reals.
From Flocq Require Import Core.
From Verif Require Import Base Num MGeometry MBezier MStl MF64 SGeom SBezier SErr SErrN SPn LErrEx LPn.
Open Scope R_scope.

(** Setting the normals of a cubic triangle keeps its corners and gives six control points and a centre near the exact ones. *)
Theorem C125_control_points : forall (k : Z), (-350 <= k <= 350)%Z -> forall (c : CBT f64) (N1 N2 N3 : Point3 f64), fits_pt k (cP1 c) -> fits_pt k (cP2 c) -> fits_pt k (cP3 c) -> fits_pt 1 N1 -> fits_pt 1 N2 -> fits_pt 1 N3 ->
  exists c', cbt_set_normals c N1 N2 N3 = Ok c' /\ cP1 c' = cP1 c /\ cP2 c' = cP2 c /\ cP3 c' = cP3 c /\
  (forall P Q n e, In (P, Q, n, e) (pn_rows (cP1 c) (cP2 c) (cP3 c) N1 N2 N3 c') -> close_pt e (pn_exact (val_pt P) (val_pt Q) (val_pt n)) (49 * bpow radix2 (k - 53))) /\
  close_pt (ccenter c') (pn_middle (val_pt (cP1 c)) (val_pt (cP2 c)) (val_pt (cP3 c)) (val_pt N1) (val_pt N2) (val_pt N3)) (1100 * bpow radix2 (k - 53)).
Proof. exact pn_doubles. Qed.
Print Assumptions C125_control_points.

(** The computed control points lie in the tangent planes of their corners, up to rounding and to the error of the normal's length. *)
Theorem C125_tangent_planes : forall (k : Z), (-350 <= k <= 350)%Z -> forall (c : CBT f64) (N1 N2 N3 : Point3 f64), fits_pt k (cP1 c) -> fits_pt k (cP2 c) -> fits_pt k (cP3 c) -> fits_pt 1 N1 -> fits_pt 1 N2 -> fits_pt 1 N3 ->
  exists c', cbt_set_normals c N1 N2 N3 = Ok c' /\ forall P Q n e, In (P, Q, n, e) (pn_rows (cP1 c) (cP2 c) (cP3 c) N1 N2 N3 c') ->
  Rabs (dot3 (sub3 (val_pt e) (val_pt P)) (val_pt n)) <= 294 * bpow radix2 (k - 53) + Rabs (dot3 (sub3 (val_pt Q) (val_pt P)) (val_pt n)) * Rabs (1 - dot3 (val_pt n) (val_pt n)) / 3.
Proof. exact pn_planes. Qed.
Print Assumptions C125_tangent_planes.

(** An octant of the unit sphere: the control point from the x axis towards the y axis is (1, 1/3, 0), the centre is (1/2, 1/2, 1/2). *)
Example C125_case : fits_pt 0 (dp 1 0 0) /\ fits_pt 0 (dp 0 1 0) /\ fits_pt 0 (dp 0 0 1) /\ fits_pt 1 (dp 1 0 0) /\ fits_pt 1 (dp 0 1 0) /\ fits_pt 1 (dp 0 0 1) /\
  pn_exact (val_pt (dp 1 0 0)) (val_pt (dp 0 1 0)) (val_pt (dp 1 0 0)) = mkP 1 (1 / 3) 0 /\
  pn_middle (val_pt (dp 1 0 0)) (val_pt (dp 0 1 0)) (val_pt (dp 0 0 1)) (val_pt (dp 1 0 0)) (val_pt (dp 0 1 0)) (val_pt (dp 0 0 1)) = mkP (1 / 2) (1 / 2) (1 / 2).
Proof. exact pn_case. Qed.
