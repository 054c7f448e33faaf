(** Properties C38-C41: transforms (exact real arithmetic). *)
From Coq Require Import ZArith List Bool Reals Lra.
From Verif Require Import Base Num MGeometry MTransform SGeom LBase LGeom LTransform.
Import ListNotations.
Open Scope R_scope.

(** C38. Matrix and quaternion built from one angle (in degrees, with the program's literal for pi) and
    one unit axis: the same proper rotation, namely Rodrigues' rotation about that axis. *)
Theorem C38_angle_axis_is_proper_rotation : forall (angle : R) (u : pt3), len3 u = 1 ->
  exists m q, mat_from_angle_axis angle u = Ok m /\ quat_from_angle_axis angle u = Ok q /\
    (forall p, mat_apply m p = rodrigues u (angle * (2 * (314159265359 / 100000000000) / 360)) p) /\
    (forall p, quat_apply q p = mat_apply m p) /\
    isometry (mat_apply m) /\ keeps_orientation (mat_apply m) /\
    (forall k, mat_apply m (scal3 k u) = scal3 k u).
Proof. exact angle_axis_rigid. Qed.
Print Assumptions C38_angle_axis_is_proper_rotation.
Example C38_case : len3 (mkP (3/5) 0 (4/5)) = 1.
Proof. unfold len3, dot3. cbn. replace (3 / 5 * (3 / 5) + 0 * 0 + 4 / 5 * (4 / 5)) with (1 * 1) by field. apply sqrt_square. lra. Qed.

(** C39 *)
Theorem C39_rotations_compose : forall (u : pt3) (a b : R), len3 u = 1 ->
  exists ma mb mab mi mz,
    mat_from_angle_axis a u = Ok ma /\ mat_from_angle_axis b u = Ok mb /\ mat_from_angle_axis (a + b) u = Ok mab /\
    mat_from_angle_axis (- a) u = Ok mi /\ mat_from_angle_axis 0 u = Ok mz /\
    forall p, mat_apply mb (mat_apply ma p) = mat_apply mab p /\
              mat_apply mi (mat_apply ma p) = p /\ mat_apply mz p = p.
Proof. exact rotations_compose. Qed.
Print Assumptions C39_rotations_compose.

(** C40. Distances are preserved for all angles, but orientation is always reversed ... *)
Theorem C40_euler_is_an_improper_isometry : forall yaw pitch roll : R, exists e, euler_set yaw pitch roll = Ok e /\
  (forall p q, dist3 (euler_apply e p) (euler_apply e q) = dist3 p q) /\
  (forall o p q r, det3 (sub3 (euler_apply e p) (euler_apply e o)) (sub3 (euler_apply e q) (euler_apply e o)) (sub3 (euler_apply e r) (euler_apply e o))
     = - det3 (sub3 p o) (sub3 q o) (sub3 r o)).
Proof. exact euler_facts. Qed.
Print Assumptions C40_euler_is_an_improper_isometry.
(** ... and the zero angles give the reflection y -> -y, so the property as stated is false. *)
Theorem C40_refuted : exists e, euler_set 0 0 0 = Ok e /\ forall p, euler_apply e p = mkP (px p) (- py p) (pz p).
Proof. exact euler_zero. Qed.
Print Assumptions C40_refuted.

(** C41 *)
Theorem C41_effect : forall (u p : pt3) (a b c : R),
  translation u p = mkP (px p + px u) (py p + py u) (pz p + pz u) /\ scale a b c p = mkP (a * px p) (b * py p) (c * pz p).
Proof. exact translation_scale_effect. Qed.
Print Assumptions C41_effect.
Theorem C41_translations_form_a_group : forall u v p : pt3,
  translation v (translation u p) = translation (add3 u v) p /\
  translation (scal3 (-1) u) (translation u p) = p /\
  translation O3 p = p.
Proof. exact translations_compose. Qed.
Print Assumptions C41_translations_form_a_group.
Theorem C41_scales_form_a_group : forall a b c a' b' c' (p : pt3),
  scale a' b' c' (scale a b c p) = scale (a * a') (b * b') (c * c') p /\
  scale 1 1 1 p = p /\
  (a <> 0 -> b <> 0 -> c <> 0 -> scale (/ a) (/ b) (/ c) (scale a b c p) = p).
Proof. exact scales_compose. Qed.
Print Assumptions C41_scales_form_a_group.
Theorem C41_apply_all_is_pointwise : forall (T : Type) (f : Point3 T -> Point3 T) (l : list (Point3 T)),
  length (apply_all f l) = length l /\ forall i, nth_error (apply_all f l) i = option_map f (nth_error l i).
Proof. exact @apply_all_spec. Qed.
Print Assumptions C41_apply_all_is_pointwise.
Example C41_case : translation (mkP 1 2 3) (mkP 1 1 1) = mkP 2 3 4 /\ scale 2 3 4 (mkP 1 1 1) = mkP 2 3 4.
Proof. split; unfold translation, scale, padd; cbn; f_equal; ring. Qed.
