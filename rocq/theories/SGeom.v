(** Elementary vector geometry over the reals, independent of the model. *)
From Coq Require Import Reals List.
From Verif Require Import MGeometry.
Open Scope R_scope.

Notation pt3 := (Point3 R).

Definition add3 (p q : pt3) : pt3 := mkP (px p + px q) (py p + py q) (pz p + pz q).
Definition sub3 (p q : pt3) : pt3 := mkP (px p - px q) (py p - py q) (pz p - pz q).
Definition scal3 (k : R) (p : pt3) : pt3 := mkP (k * px p) (k * py p) (k * pz p).
Definition dot3 (p q : pt3) : R := px p * px q + py p * py q + pz p * pz q.
Definition cross3 (p q : pt3) : pt3 :=
  mkP (py p * pz q - pz p * py q) (pz p * px q - px p * pz q) (px p * py q - py p * px q).
Definition len3 (p : pt3) : R := sqrt (dot3 p p).
Definition dist3 (p q : pt3) : R := len3 (sub3 p q).
Definition O3 : pt3 := mkP 0 0 0.
(** Determinant of three vectors: positive for a right-handed frame. *)
Definition det3 (p q r : pt3) : R := dot3 p (cross3 q r).
(** Convex combination of two points. *)
Definition lerp3 (p q : pt3) (t : R) : pt3 := add3 p (scal3 t (sub3 q p)).

Definition on_segment (x p q : pt3) : Prop := exists t, 0 <= t <= 1 /\ x = lerp3 p q t.
Definition on_line (x p q : pt3) : Prop := exists t, x = lerp3 p q t.
(** [x] has barycentric coordinates (a,b,c) in the triangle p q r. *)
Definition bary (p q r x : pt3) (a b c : R) : Prop :=
  a + b + c = 1 /\ x = add3 (add3 (scal3 a p) (scal3 b q)) (scal3 c r).
Definition in_triangle (p q r x : pt3) : Prop :=
  exists a b c, 0 <= a /\ 0 <= b /\ 0 <= c /\ bary p q r x a b c.
Definition in_plane_of (p q r x : pt3) : Prop := exists a b c, bary p q r x a b c.
Definition collinear (p q r : pt3) : Prop := cross3 (sub3 q p) (sub3 r p) = O3.
(** Area of a triangle: half the norm of the cross product of two edges. *)
Definition area3 (p q r : pt3) : R := len3 (cross3 (sub3 q p) (sub3 r p)) / 2.
(** Signed volume of the tetrahedron (origin, p, q, r). *)
Definition tetra_vol (p q r : pt3) : R := det3 p q r / 6.

(** The plane with coefficients (a,b,c,d). *)
Definition side (pl : Plane3 R) (x : pt3) : R := pa pl * px x + pb pl * py x + pc pl * pz x + pd pl.
Definition on_plane (pl : Plane3 R) (x : pt3) : Prop := side pl x = 0.

(** Axis-aligned boxes. *)
Definition in_box (lo hi x : pt3) : Prop :=
  px lo <= px x <= px hi /\ py lo <= py x <= py hi /\ pz lo <= pz x <= pz hi.

(** Isometries of space. *)
Definition isometry (f : pt3 -> pt3) : Prop := forall p q, dist3 (f p) (f q) = dist3 p q.
(** Orientation preserving: keeps the sign of every frame. *)
Definition keeps_orientation (f : pt3 -> pt3) : Prop :=
  forall o p q r, det3 (sub3 (f p) (f o)) (sub3 (f q) (f o)) (sub3 (f r) (f o))
                = det3 (sub3 p o) (sub3 q o) (sub3 r o).

(** Triangles as point sets. *)
Definition tri_proper (A : Triangle3 R) : Prop := ~ collinear (t1 A) (t2 A) (t3 A).
Definition in_tri (A : Triangle3 R) (x : pt3) : Prop := in_triangle (t1 A) (t2 A) (t3 A) x.
Definition edge_of (p q r a b : pt3) : Prop :=
  (a = p /\ b = q) \/ (a = p /\ b = r) \/ (a = q /\ b = r).
Definition tri_edge (A : Triangle3 R) (a b : pt3) : Prop := edge_of (t1 A) (t2 A) (t3 A) a b.
(** No vertex of [B] lies in the plane of [A]. *)
Definition vertices_off (A B : Triangle3 R) : Prop :=
  ~ in_plane_of (t1 A) (t2 A) (t3 A) (t1 B) /\ ~ in_plane_of (t1 A) (t2 A) (t3 A) (t2 B) /\
  ~ in_plane_of (t1 A) (t2 A) (t3 A) (t3 B).
(** No edge of [X] meets the straight line through the second and third vertices of [Y]. *)
Definition avoids_line23 (X Y : Triangle3 R) : Prop :=
  forall a b x, tri_edge X a b -> on_segment x a b -> ~ on_line x (t2 Y) (t3 Y).

(** A plane whose coefficients (a,b,c) have norm 1. *)
Definition unit_plane (pl : Plane3 R) : Prop := pa pl * pa pl + pb pl * pb pl + pc pl * pc pl = 1.

(** The two corners of a bounding box. *)
Definition box_lo (b : BBox3 R) : pt3 := mkP (bx1 b) (by1 b) (bz1 b).
Definition box_hi (b : BBox3 R) : pt3 := mkP (bx2 b) (by2 b) (bz2 b).

(** Rodrigues' formula: the rotation of angle [th] (radians) about the unit vector [u]. *)
Definition rodrigues (u : pt3) (th : R) (p : pt3) : pt3 :=
  add3 (add3 (scal3 (cos th) p) (scal3 (sin th) (cross3 u p))) (scal3 ((1 - cos th) * dot3 u p) u).
