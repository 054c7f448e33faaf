(** Specification: where a point lies over a triangle. *)
From Coq Require Import ZArith Reals.
From Verif Require Import Base Num MGeometry SGeom.
Open Scope R_scope.

(** Twice the area vector of a triangle. *)
Definition area_vec (p q r : pt3) : pt3 := cross3 (sub3 q p) (sub3 r p).
(** [x] lies over the point with weights [a], [b], [c] of the triangle, [h] area vectors away from its plane. *)
Definition over (p q r : pt3) (a b c h : R) (x : pt3) : Prop :=
  a + b + c = 1 /\ x = add3 (add3 (scal3 a p) (scal3 b q)) (add3 (scal3 c r) (scal3 h (area_vec p q r))).
(** How far inside the point is, at the two sides that end in the first corner; being away from the plane counts against it when the angle at the far corner is acute. *)
Definition margin (p q r : pt3) (a b h : R) : R := dot3 (area_vec p q r) (area_vec p q r) * (a * b - h * h * dot3 (sub3 p r) (sub3 q r)).
