(** Property C124: the containment test of a triangle off its plane and in doubles. *)
From Coq Require Import ZArith List Bool Reals.
From Flocq Require Import Core.
From Verif Require Import Base Num MGeometry MStl MF64 SGeom SErr SErrN SPlaneD SContD LErrEx LContD.
Open Scope R_scope.

(** Every point lies over some point of the plane of a triangle that is not flat. *)
Theorem C124_coordinates : forall p q r x : pt3, dot3 (area_vec p q r) (area_vec p q r) <> 0 -> exists a b c h, over p q r a b c h x.
Proof. exact over_exists. Qed.
Print Assumptions C124_coordinates.

(** Over the reals the test is the sign of two margins ... *)
Theorem C124_margins : forall (p q r : pt3) (a b c h : R) (x : pt3), over p q r a b c h x -> tri_contains (mkTri p q r) x = true <-> 0 <= margin p q r a b h /\ 0 <= margin p r q a c h.
Proof. exact contains_over. Qed.
Print Assumptions C124_margins.

(** ... and in doubles it is the same test, up to 2^(4k-42). *)
Theorem C124_doubles : forall k : Z, (-200 <= k <= 200)%Z -> forall (t : Triangle3 f64) (x : Point3 f64) (a b c h : R), fits_tri k t -> fits_pt k x ->
  let p := val_pt (t1 t) in let q := val_pt (t2 t) in let r := val_pt (t3 t) in let e := bpow radix2 (4 * k - 42) in over p q r a b c h (val_pt x) ->
  (e < margin p q r a b h -> e < margin p r q a c h -> tri_contains t x = true) /\ (tri_contains t x = true -> - e < margin p q r a b h /\ - e < margin p r q a c h).
Proof. exact contains_doubles. Qed.
Print Assumptions C124_doubles.

(** Two points equally far above a triangle, both over inner points: one is accepted, the other is not. *)
Theorem C124_above_refuted : over O3 (mkP 1 0 0) (mkP 0 1 0) (1 / 3) (1 / 3) (1 / 3) (1 / 4) (mkP (1 / 3) (1 / 3) (1 / 4)) /\ over O3 (mkP 1 0 0) (mkP 0 1 0) (9 / 10) (1 / 20) (1 / 20) (1 / 4) (mkP (1 / 20) (1 / 20) (1 / 4)) /\
  tri_contains (mkTri O3 (mkP 1 0 0) (mkP 0 1 0)) (mkP (1 / 3) (1 / 3) (1 / 4)) = true /\ tri_contains (mkTri O3 (mkP 1 0 0) (mkP 0 1 0)) (mkP (1 / 20) (1 / 20) (1 / 4)) = false.
Proof. exact above_case. Qed.
Print Assumptions C124_above_refuted.

Example C124_case : let t := mkTri (dp 0 0 0) (dp 4 0 0) (dp 0 4 0) in let p := val_pt (t1 t) in let q := val_pt (t2 t) in let r := val_pt (t3 t) in
  fits_tri 2 t /\ fits_pt 2 (dp 1 1 0) /\ over p q r (1 / 2) (1 / 4) (1 / 4) 0 (val_pt (dp 1 1 0)) /\ bpow radix2 (4 * 2 - 42) < margin p q r (1 / 2) (1 / 4) 0 /\ bpow radix2 (4 * 2 - 42) < margin p r q (1 / 2) (1 / 4) 0.
Proof. exact contains_case. Qed.
