(** Specification words for the round solids: equally spaced points and the volumes of the polyhedra through them. *)
From Coq Require Import ZArith List Bool Reals.
From Verif Require Import MGeometry SGeom.
Open Scope R_scope.

(** The k-th of N equal parts of a full turn and of a half turn. *)
Definition part (N k : Z) : R := 2 * PI * IZR k / IZR N.
Definition half_part (M k : Z) : R := PI * IZR k / IZR M.
(** Points on a cylinder, a sphere (latitude measured from the north pole) and a torus, all around the z axis. *)
Definition cylinder_point (r z u : R) : pt3 := mkP (r * cos u) (r * sin u) z.
Definition sphere_point (r u v : R) : pt3 := mkP (r * sin v * cos u) (r * sin v * sin u) (r * cos v).
Definition torus_point (rM rm u v : R) : pt3 := mkP ((rM + rm * cos v) * cos u) ((rM + rm * cos v) * sin u) (rm * sin v).
(** N times the area of the triangle between two neighbouring corners of the regular N-gon in the unit circle, times 2. *)
Definition gon (N : Z) : R := IZR N * sin (2 * PI / IZR N).
(** Volume of the prism over the regular N-gon of radius r, and of the polyhedra through N times M equally spaced points
    of a sphere and of a torus. *)
Definition prism_volume (N : Z) (r h : R) : R := gon N / 2 * (r * r) * h.
Definition globe_volume (N M : Z) (r : R) : R := gon N * (1 + cos (PI / IZR M)) / 3 * (r * r * r).
Definition ring_volume (N M : Z) (rM rm : R) : R := gon N * gon M / 2 * rM * (rm * rm).
(** What is allowed for the 27 digits of pi in the code. *)
Definition tiny : R := 3 / 10000000000000000000000000.
(** A face of a ring winds outwards: seen from the centre of a circle of the tube that passes through its first two
    corners, the corners turn anticlockwise. *)
Definition faces_out_of_tube (rM rm : R) (f : pt3 * pt3 * pt3) : Prop := let '(p, q, s) := f in
  exists t, let c := mkP (rM * cos t) (rM * sin t) 0 in
    dist3 p c = rm /\ dist3 q c = rm /\ 0 < det3 (sub3 p c) (sub3 q c) (sub3 s c).
