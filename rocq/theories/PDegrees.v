(** C102: rotations are measured in degrees; new rotations are neutral.  Only statements. *)
From Coq Require Import ZArith List Bool Reals Lra.
From Flocq Require Import IEEE754.Binary.
From Verif Require Import Base Num MGeometry MTransform MStl MF64 SGeom SF64 SDegrees LTransform LDegrees LDegrees2.
Open Scope R_scope.

(** Matrix and quaternion turn by the given number of degrees, up to 1.15e-15 per degree. *)
Theorem C102_angle_axis_degrees : forall (angle : R) (u : pt3), len3 u = 1 ->
  exists m q, mat_from_angle_axis angle u = Ok m /\ quat_from_angle_axis angle u = Ok q /\
  forall p, dist3 (mat_apply m p) (turn_deg u angle p) <= slack angle (len3 p) /\
            dist3 (quat_apply q p) (turn_deg u angle p) <= slack angle (len3 p).
Proof. exact angle_axis_degrees. Qed.
Print Assumptions C102_angle_axis_degrees.
(** 90 degrees about z takes the x axis to the y axis. *)
Example C102_quarter_turn : turn_deg (mkP 0 0 1) 90 (mkP 1 0 0) = mkP 0 1 0 /\ slack 90 1 <= 11 / 100000000000000.
Proof.
  split; [|unfold slack; rewrite Rabs_pos_eq by lra; lra]. unfold turn_deg. rewrite rodrigues_z. replace (90 * (PI / 180)) with (PI / 2) by field.
  rewrite cos_PI2, sin_PI2. cbn [px py pz]. f_equal; ring.
Qed.
(** The three Euler angles are degrees too: a turn about y by the first, a reflection, a turn about x by minus the
    second, a turn about z by minus the third. *)
Theorem C102_euler_degrees : forall yaw pitch roll : R, exists e, euler_set yaw pitch roll = Ok e /\
  forall p, dist3 (euler_apply e p) (turn_deg (mkP 0 0 1) (- roll) (turn_deg (mkP 1 0 0) (- pitch) (mirror_y (turn_deg (mkP 0 1 0) yaw p))))
    <= slack yaw (len3 p) + slack pitch (len3 p) + slack roll (len3 p).
Proof. exact euler_degrees. Qed.
Print Assumptions C102_euler_degrees.
(** A new RotationMatrix, RotationAngleAxis or RotationQuaternion leaves every point where it is, over the reals ... *)
Theorem C102_new_rotations : forall p : pt3, mat_apply mat_id p = p /\ quat_apply quat_id p = p.
Proof. exact new_rotations. Qed.
Print Assumptions C102_new_rotations.
(** ... and in doubles, for finite coordinates (the results compare equal; -0 may become 0). *)
Theorem C102_new_rotations_double : forall p : Point3 f64,
  Binary.is_finite 53 1024 (px p) = true -> Binary.is_finite 53 1024 (py p) = true -> Binary.is_finite 53 1024 (pz p) = true ->
  deq_pt (mat_apply mat_id p) p /\ deq_pt (quat_apply quat_id p) p.
Proof. exact new_rotations_double. Qed.
Print Assumptions C102_new_rotations_double.
Example C102_double_case : let p := mkP (f64_ofZ 1) (f64_ofZ (-7)) (f64_ofZ 100000000000) in
  Binary.is_finite 53 1024 (px p) = true /\ Binary.is_finite 53 1024 (py p) = true /\ Binary.is_finite 53 1024 (pz p) = true.
Proof. vm_compute. auto. Qed.
(** A new RotationEulerAngles does not: it mirrors. *)
Theorem C102_new_euler_refuted : exists e, euler_set 0 0 0 = Ok e /\ forall p : pt3, euler_apply e p = mirror_y p.
Proof. exact euler_zero. Qed.
Print Assumptions C102_new_euler_refuted.
