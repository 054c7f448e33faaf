(** Property C112: transforms of doubles. *)
From Coq Require Import ZArith List Bool Reals.
From Flocq Require Import Core.
From Verif Require Import Base Num MGeometry MTransform MStl MF64 SGeom SErr SErrN SErrT LErrEx LErrT.
Open Scope R_scope.

(** Points and vectors of magnitude at most 2^k: a translation is off by at most 2^(k-53) in every coordinate ... *)
Theorem C112_translation_error : forall (k : Z), (-900 <= k <= 900)%Z -> forall t p : Point3 f64, fits_pt k t -> fits_pt k p ->
  close_pt (translation t p) (add3 (val_pt p) (val_pt t)) (bpow radix2 (k - 53)).
Proof. exact translation_err. Qed.
Print Assumptions C112_translation_error.
(** ... and there and back again by at most three times that, ... *)
Theorem C112_there_and_back_partial : forall (k : Z), (-900 <= k <= 900)%Z -> forall t t' p : Point3 f64, fits_pt k t -> fits_pt k t' -> fits_pt k p -> opposite t t' ->
  close_pt (translation t' (translation t p)) (val_pt p) (3 * bpow radix2 (k - 53)).
Proof. exact there_back. Qed.
Print Assumptions C112_there_and_back_partial.
(** ... but not exactly: (1, 1, 1) can come back to the origin. *)
Theorem C112_there_and_back_refuted : exists t t' p : Point3 f64, fits_pt 53 t /\ fits_pt 53 t' /\ fits_pt 53 p /\ opposite t t' /\
  val_pt p = mkP 1 1 1 /\ val_pt (translation t' (translation t p)) = O3.
Proof. exact back_refuted. Qed.
Print Assumptions C112_there_and_back_refuted.

Theorem C112_scale_error : forall (k j : Z) (sx sy sz : f64) (p : Point3 f64), (-400 <= k <= 400)%Z -> (-400 <= j <= 400)%Z -> fits j sx -> fits j sy -> fits j sz -> fits_pt k p ->
  close_pt (scale sx sy sz p) (mkP (val (px p) * val sx) (val (py p) * val sy) (val (pz p) * val sz)) (bpow radix2 (k + j - 54)).
Proof. exact scale_err. Qed.
Print Assumptions C112_scale_error.

(** A rotation by Euler angles whose six stored sines and cosines are within d 2^-53 of the exact ones. *)
Theorem C112_euler_error : forall (k : Z), (-900 <= k <= 900)%Z -> forall (d : R) (e : Euler f64) (a b c : R) (p : Point3 f64), 0 <= d ->
  stored_euler (d * bpow radix2 (-53)) e a b c -> fits_pt k p ->
  close_pt (euler_apply e p) (exact_euler a b c (val_pt p)) ((13 * d + 15) * bpow radix2 (k - 53)).
Proof. exact euler_err. Qed.
Print Assumptions C112_euler_error.
Theorem C112_euler_distances : forall (k : Z) (d : R) (e : Euler f64) (a b c : R) (p q : Point3 f64), (-900 <= k <= 900)%Z -> 0 <= d ->
  stored_euler (d * bpow radix2 (-53)) e a b c -> fits_pt k p -> fits_pt k q ->
  Rabs (dist3 (val_pt (euler_apply e p)) (val_pt (euler_apply e q)) - dist3 (val_pt p) (val_pt q)) <= 3.5 * ((13 * d + 15) * bpow radix2 (k - 53)).
Proof. exact euler_dist. Qed.
Print Assumptions C112_euler_distances.

(** A matrix whose entries are within d 2^-53 of those of an isometry. *)
Theorem C112_matrix_error : forall (k : Z) (d : R) (m : Mat f64) (u v w : pt3) (p q : Point3 f64), (-900 <= k <= 900)%Z ->
  isometry (rows u v w) -> d * bpow radix2 (-53) <= 1 -> stored_matrix (d * bpow radix2 (-53)) m u v w -> fits_pt k p -> fits_pt k q ->
  close_pt (mat_apply m p) (rows u v w (val_pt p)) ((3 * d + 9) * bpow radix2 (k - 53)) /\
  Rabs (dist3 (val_pt (mat_apply m p)) (val_pt (mat_apply m q)) - dist3 (val_pt p) (val_pt q)) <= 3.5 * ((3 * d + 9) * bpow radix2 (k - 53)).
Proof. exact matrix_iso. Qed.
Print Assumptions C112_matrix_error.

(** A stored quaternion with entries of magnitude at most 1, against the same quaternion over the reals. *)
Theorem C112_quaternion_error : forall (k : Z) (q : Quat f64) (p : Point3 f64), (-900 <= k <= 900)%Z -> fits 0 (qa q) -> fits 0 (qb q) -> fits 0 (qc q) -> fits 0 (qd q) -> fits_pt k p ->
  close_pt (quat_apply q p) (quat_apply (val_quat q) (val_pt p)) (54 * bpow radix2 (k - 53)).
Proof. exact quat_err. Qed.
Print Assumptions C112_quaternion_error.

Example C112_euler_case : stored_euler (2 * bpow radix2 (-53)) (mkEuler (f64_ofZ 1) (f64_ofZ 0) (f64_ofZ 0) (f64_ofZ 1) (f64_ofZ 1) (f64_ofZ 0)) 0 (PI / 2) 0 /\ fits_pt 2 (dp 1 (-2) 3).
Proof. exact euler_case. Qed.
Example C112_matrix_case : let u := mkP 0 (-1) 0 in let v := mkP 1 0 0 in let w := mkP 0 0 1 in
  isometry (rows u v w) /\ stored_matrix (0 * bpow radix2 (-53)) (mkMat (f64_ofZ 0) (f64_ofZ (-1)) (f64_ofZ 0) (f64_ofZ 1) (f64_ofZ 0) (f64_ofZ 0) (f64_ofZ 0) (f64_ofZ 0) (f64_ofZ 1)) u v w.
Proof. exact matrix_case. Qed.
