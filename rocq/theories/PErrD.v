(** Property C113: rotations by degrees in doubles, from the angle that is set to the point that comes out. *)
From Coq Require Import ZArith List Bool Reals.
From Flocq Require Import Core.
From Verif Require Import Base Num MGeometry MTransform MStl MF64 SMesh SGeom SDegrees SErr SErrN SErrT SErrD LErrEx LErrD.
Import ListNotations.
Open Scope R_scope.

(** Angles up to 512 degrees and a cosine and sine within 2^-53: three Euler angles ... *)
Theorem C113_euler_degrees : forall (TR : Trig f64), good_trig TR -> forall yaw pitch roll : f64, fits 9 yaw -> fits 9 pitch -> fits 9 roll ->
  exists e, euler_set yaw pitch roll = Ok e /\
  forall (k : Z) (v : Point3 f64), (-900 <= k <= 900)%Z -> fits_pt k v -> finite_points [euler_apply e v] /\
  dist3 (val_pt (euler_apply e v)) (turn_deg (mkP 0 0 1) (- val roll) (turn_deg (mkP 1 0 0) (- val pitch) (mirror_y (turn_deg (mkP 0 1 0) (val yaw) (val_pt v)))))
    <= slack (val yaw) (len3 (val_pt v)) + slack (val pitch) (len3 (val_pt v)) + slack (val roll) (len3 (val_pt v)) + 325 * bpow radix2 (k - 53).
Proof. exact euler_degrees64. Qed.
Print Assumptions C113_euler_degrees.

(** ... a matrix and a quaternion about an axis close to a unit vector ... *)
Theorem C113_matrix_degrees : forall (TR : Trig f64), good_trig TR -> forall (angle : f64) (axis : Point3 f64) (u : pt3),
  fits 9 angle -> len3 u = 1 -> close_pt axis u (11 * bpow radix2 (-53)) -> exists m, mat_from_angle_axis angle axis = Ok m /\
  forall (k : Z) (v : Point3 f64), (-900 <= k <= 900)%Z -> fits_pt k v -> finite_points [mat_apply m v] /\
  dist3 (val_pt (mat_apply m v)) (turn_deg u (val angle) (val_pt v)) <= slack (val angle) (len3 (val_pt v)) + 675 * bpow radix2 (k - 53).
Proof. exact matrix_degrees64. Qed.
Print Assumptions C113_matrix_degrees.
Theorem C113_quaternion_degrees : forall (TR : Trig f64), good_trig TR -> forall (angle : f64) (axis : Point3 f64) (u : pt3),
  fits 9 angle -> len3 u = 1 -> close_pt axis u (11 * bpow radix2 (-53)) -> exists q, quat_from_angle_axis angle axis = Ok q /\
  forall (k : Z) (v : Point3 f64), (-900 <= k <= 900)%Z -> fits_pt k v -> finite_points [quat_apply q v] /\
  dist3 (val_pt (quat_apply q v)) (turn_deg u (val angle) (val_pt v)) <= slack (val angle) (len3 (val_pt v)) + 2910 * bpow radix2 (k - 53).
Proof. exact quaternion_degrees64. Qed.
Print Assumptions C113_quaternion_degrees.
(** ... such as any vector that is neither huge nor tiny, once normalised. *)
Theorem C113_any_axis : forall (TR : Trig f64) (angle : f64) (k : Z) (w : Point3 f64), good_trig TR -> fits 9 angle -> (k <= 450)%Z -> fits_pt k w -> bpow radix2 (-450) <= len3 (val_pt w) ->
  exists a m q, normalized w = Ok a /\ mat_from_angle_axis angle a = Ok m /\ quat_from_angle_axis angle a = Ok q /\
  forall (j : Z) (v : Point3 f64), (-900 <= j <= 900)%Z -> fits_pt j v -> finite_points [mat_apply m v; quat_apply q v] /\
  dist3 (val_pt (mat_apply m v)) (turn_deg (direction (val_pt w)) (val angle) (val_pt v)) <= slack (val angle) (len3 (val_pt v)) + 675 * bpow radix2 (j - 53) /\
  dist3 (val_pt (quat_apply q v)) (turn_deg (direction (val_pt w)) (val angle) (val_pt v)) <= slack (val angle) (len3 (val_pt v)) + 2910 * bpow radix2 (j - 53).
Proof. exact about64. Qed.
Print Assumptions C113_any_axis.

(** Correctly rounded functions are good; an angle of 90 degrees about (1, -2, 3), and points of magnitude up to 4. *)
Example C113_case : good_trig correct_trig /\ fits 9 (f64_ofZ 90) /\ val (f64_ofZ 90) = 90 /\ fits_pt 2 (dp 1 (-2) 3) /\ bpow radix2 (-450) <= len3 (val_pt (dp 1 (-2) 3)).
Proof. exact degrees_case. Qed.
Example C113_axis_case : len3 (mkP 0 0 1) = 1 /\ close_pt (dp 0 0 1) (mkP 0 0 1) (11 * bpow radix2 (-53)).
Proof. exact axis_case. Qed.
