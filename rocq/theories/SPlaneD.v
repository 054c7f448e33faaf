(** Planes whose coefficients are doubles. *)
From Coq Require Import ZArith Reals List Bool.
From Flocq Require Import Core.
From Verif Require Import Base Num MGeometry MStl MF64 SGeom SErr SErrN.
Import ListNotations.
Open Scope R_scope.

(** The plane, triangle and box over the reals that the stored doubles stand for. *)
Definition val_plane (pl : Plane3 f64) : Plane3 R := mkPlane (val (pa pl)) (val (pb pl)) (val (pc pl)) (val (pd pl)).
Definition val_tri (t : Triangle3 f64) : Triangle3 R := mkTri (val_pt (t1 t)) (val_pt (t2 t)) (val_pt (t3 t)).
Definition val_box (b : BBox3 f64) : BBox3 R := mkBox (val (bx1 b)) (val (by1 b)) (val (bz1 b)) (val (bx2 b)) (val (by2 b)) (val (bz2 b)) (binit b).
(** A normal with components up to 2, such as any unit normal, and a plane within reach of the points up to 2^k. *)
Definition plane_fits (k : Z) (pl : Plane3 f64) : Prop := fits 1 (pa pl) /\ fits 1 (pb pl) /\ fits 1 (pc pl) /\ fits (k + 3) (pd pl).
Definition fits_tri (k : Z) (t : Triangle3 f64) : Prop := fits_pt k (t1 t) /\ fits_pt k (t2 t) /\ fits_pt k (t3 t).
Definition fin_pt (p : Point3 f64) : Prop := fin (px p) /\ fin (py p) /\ fin (pz p).
