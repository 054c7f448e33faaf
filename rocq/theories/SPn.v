(** Specification: point-normal triangles in doubles. *)
From Coq Require Import ZArith List Reals.
From Flocq Require Import Core.
From Verif Require Import Base Num MGeometry MBezier MStl MF64 SGeom SBezier SErr SErrN.
Import ListNotations.
Open Scope R_scope.

(** The control point a third along the edge from [P] to [Q], moved along the normal [n] of [P]: into the tangent plane if [n] is a unit vector. *)
Definition pn_exact (P Q n : pt3) : pt3 := sub3 (third P Q) (scal3 (dot3 (sub3 Q P) n / 3) n).
(** Start, end and normal of the six control points, with the computed points. *)
Definition pn_rows (P1 P2 P3 N1 N2 N3 : Point3 f64) (c : CBT f64) : list (Point3 f64 * Point3 f64 * Point3 f64 * Point3 f64) :=
  [(P1, P2, N1, c12 c); (P2, P1, N2, c21 c); (P1, P3, N1, c13 c); (P3, P1, N3, c31 c); (P2, P3, N2, c23 c); (P3, P2, N3, c32 c)].
(** The centre: the mean of the six exact control points, moved away from the mean of the corners by half their difference. *)
Definition mean (l : list pt3) : pt3 := scal3 (/ INR (length l)) (fold_right add3 (mkP 0 0 0) l).
Definition pn_middle (P1 P2 P3 N1 N2 N3 : pt3) : pt3 :=
  let E := mean [pn_exact P1 P2 N1; pn_exact P2 P1 N2; pn_exact P1 P3 N1; pn_exact P3 P1 N3; pn_exact P2 P3 N2; pn_exact P3 P2 N3] in
  add3 E (scal3 (/ 2) (sub3 E (mean [P1; P2; P3]))).
