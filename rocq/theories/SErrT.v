(** Transforms stored in doubles. *)
From Coq Require Import ZArith List Bool Reals.
From Flocq Require Import Core IEEE754.Binary.
From Verif Require Import Base Num MGeometry MTransform MStl MF64 SGeom SErr SErrN.
Open Scope R_scope.

(** A double of magnitude at most 1, within [d] of the real [y]: what a cosine or a sine is stored as. *)
Definition stored (d : R) (x : f64) (y : R) : Prop := fits 0 x /\ Rabs (val x - y) <= d.
(** The stored sines and cosines are within [d] of those of three real angles. *)
Definition stored_euler (d : R) (e : Euler f64) (a b c : R) : Prop :=
  (stored d (eyc e) (cos a) /\ stored d (eys e) (sin a)) /\ (stored d (epc e) (cos b) /\ stored d (eps e) (sin b)) /\ (stored d (erc e) (cos c) /\ stored d (ers e) (sin c)).
(** The exact movement of three angles: turn about y, turn about x with y reflected, turn about z. *)
Definition exact_euler (a b c : R) (p : pt3) : pt3 :=
  let x := px p * cos a + pz p * sin a in let z := pz p * cos a - px p * sin a in
  let y := z * sin b - py p * cos b in
  mkP (x * cos c + y * sin c) (y * cos c - x * sin c) (z * cos b + py p * sin b).
(** A matrix whose entries are within [d] of the rows [u], [v], [w]. *)
Definition stored_matrix (d : R) (m : Mat f64) (u v w : pt3) : Prop :=
  (close_to (m0 m) (px u) d /\ close_to (m1 m) (py u) d /\ close_to (m2 m) (pz u) d) /\
  (close_to (m3 m) (px v) d /\ close_to (m4 m) (py v) d /\ close_to (m5 m) (pz v) d) /\
  (close_to (m6 m) (px w) d /\ close_to (m7 m) (py w) d /\ close_to (m8 m) (pz w) d).
Definition rows (u v w p : pt3) : pt3 := mkP (dot3 u p) (dot3 v p) (dot3 w p).
(** The quaternion over the reals that the stored doubles stand for. *)
Definition val_quat (q : Quat f64) : Quat R := mkQuat (val (qa q)) (val (qb q)) (val (qc q)) (val (qd q)).
(** [t'] is the opposite of [t]. *)
Definition opposite (t t' : Point3 f64) : Prop := val_pt t' = sub3 O3 (val_pt t).
