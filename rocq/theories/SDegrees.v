(** Specification of angles: degrees, turns about an axis, equally spaced directions. *)
From Coq Require Import Reals ZArith List.
From Verif Require Import Base Num MGeometry SGeom.
Open Scope R_scope.

(** The turn by [a] degrees about the unit vector [u] (counter-clockwise seen from the tip of [u]). *)
Definition turn_deg (u : pt3) (a : R) (p : pt3) : pt3 := rodrigues u (a * (PI / 180)) p.
(** The error allowed for [a] degrees at distance [r]: 1.15e-15 per degree, relative to the distance. *)
Definition slack (a r : R) : R := Rabs a * (115 / 100000000000000000) * r.
(** The mirror image in the plane y = 0. *)
Definition mirror_y (p : pt3) : pt3 := mkP (px p) (- py p) (pz p).
