(** Lemmas about the transform model over the reals. *)
From Coq Require Import Reals List Bool Lra Lia Psatz ZArith.
From Verif Require Import Base Num MGeometry MTransform SGeom LBase LGeom.
Import ListNotations.
Open Scope R_scope.

Definition kdeg : R := 2 * (314159265359 / 100000000000) / 360.

Lemma deg_to_rad_R : deg_to_rad = Ok kdeg.
Proof. unfold deg_to_rad. rewrite ndiv_R; [reflexivity|cbn; lra]. Qed.

Definition rod (u : pt3) (c s : R) (p : pt3) : pt3 :=
  add3 (add3 (scal3 c p) (scal3 s (cross3 u p))) (scal3 ((1 - c) * dot3 u p) u).

Lemma mat_rod angle u : exists m, mat_from_angle_axis angle u = Ok m /\
  forall p, mat_apply m p = rodrigues u (angle * kdeg) p.
Proof.
  unfold mat_from_angle_axis. rewrite deg_to_rad_R. cbn [bind]. eexists. split; [reflexivity|].
  intros p. unfold mat_apply, rodrigues. cbn. unfold add3, scal3, cross3, dot3. cbn. apply P_eq; ring.
Qed.

Lemma len1 u : len3 u = 1 -> dot3 u u = 1.
Proof. intros H. rewrite <- len3_sq, H. ring. Qed.

Lemma half_angle th : cos th = 1 - 2 * (sin (th / 2) * sin (th / 2)) /\ sin th = 2 * sin (th / 2) * cos (th / 2).
Proof.
  split.
  - replace th with (2 * (th / 2)) at 1 by field. rewrite cos_2a_sin. ring.
  - replace th with (2 * (th / 2)) at 1 by field. rewrite sin_2a. ring.
Qed.

Lemma quat_rod angle u : len3 u = 1 -> exists q, quat_from_angle_axis angle u = Ok q /\
  forall p, quat_apply q p = rodrigues u (angle * kdeg) p.
Proof.
  intros L. apply len1 in L. unfold quat_from_angle_axis. rewrite deg_to_rad_R. cbn [bind]. eexists. split; [reflexivity|].
  intros p. unfold quat_apply, rodrigues. cbn.
  replace (angle * kdeg * (1 / 2)) with (angle * kdeg / 2) by field.
  destruct (half_angle (angle * kdeg)) as [-> ->].
  set (S := sin _). set (C := cos _). unfold dot3 in L. unfold add3, scal3, cross3, dot3. cbn.
  destruct u as [u1 u2 u3], p as [x y z]. cbn in *. apply P_eq.
  - assert (u1 * u1 = 1 - u2 * u2 - u3 * u3) as H by lra. ring [H].
  - assert (u2 * u2 = 1 - u1 * u1 - u3 * u3) as H by lra. ring [H].
  - assert (u3 * u3 = 1 - u2 * u2 - u1 * u1) as H by lra. ring [H].
Qed.

Lemma rod_sub u c s p q : sub3 (rod u c s p) (rod u c s q) = rod u c s (sub3 p q).
Proof. unfold rod, add3, sub3, scal3, cross3, dot3. cbn. apply P_eq; ring. Qed.

Lemma rod_len u c s p : dot3 u u = 1 -> c * c + s * s = 1 -> dot3 (rod u c s p) (rod u c s p) = dot3 p p.
Proof.
  intros U CS.
  assert (dot3 (rod u c s p) (rod u c s p) =
    c * c * dot3 p p + s * s * (dot3 p p * dot3 u u - dot3 u p * dot3 u p) + (1 - c) * (1 - c) * dot3 u p * dot3 u p * dot3 u u
    + 2 * c * (1 - c) * dot3 u p * dot3 u p) as ->.
  { unfold rod, add3, sub3, scal3, cross3, dot3. cbn. ring. }
  rewrite U. assert (s * s = 1 - c * c) as -> by lra. ring.
Qed.

Lemma rod_det u c s p q r : dot3 u u = 1 -> c * c + s * s = 1 ->
  det3 (rod u c s p) (rod u c s q) (rod u c s r) = det3 p q r.
Proof.
  intros U CS.
  assert (det3 (rod u c s p) (rod u c s q) (rod u c s r) =
    (c * (c * c + s * s * dot3 u u) + (1 - c) * (c * c + s * s * dot3 u u) * dot3 u u) * det3 p q r) as ->.
  { unfold det3, rod, add3, sub3, scal3, cross3, dot3. cbn. ring. }
  rewrite U, !Rmult_1_r, CS. ring.
Qed.

Lemma cs1 th : cos th * cos th + sin th * sin th = 1.
Proof. pose proof (sin2_cos2 th) as H. unfold Rsqr in H. lra. Qed.

Lemma rodrigues_rigid u th : len3 u = 1 ->
  isometry (rodrigues u th) /\ keeps_orientation (rodrigues u th) /\ forall k, rodrigues u th (scal3 k u) = scal3 k u.
Proof.
  intros L. apply len1 in L. pose proof (cs1 th) as CS. split; [|split].
  - intros p q. unfold dist3, len3. change (rodrigues u th) with (rod u (cos th) (sin th)).
    rewrite rod_sub, rod_len by assumption. reflexivity.
  - intros o p q r. change (rodrigues u th) with (rod u (cos th) (sin th)). rewrite !rod_sub. apply rod_det; assumption.
  - intros k. unfold rodrigues.
    replace (dot3 u (scal3 k u)) with (k * dot3 u u) by (unfold dot3, scal3; cbn; ring). rewrite L.
    unfold add3, scal3, cross3. cbn. apply P_eq; ring.
Qed.

Lemma angle_axis_rigid angle u : len3 u = 1 ->
  exists m q, mat_from_angle_axis angle u = Ok m /\ quat_from_angle_axis angle u = Ok q /\
    (forall p, mat_apply m p = rodrigues u (angle * kdeg) p) /\
    (forall p, quat_apply q p = mat_apply m p) /\
    isometry (mat_apply m) /\ keeps_orientation (mat_apply m) /\
    (forall k, mat_apply m (scal3 k u) = scal3 k u).
Proof.
  intros L. destruct (mat_rod angle u) as [m [Em Hm]]. destruct (quat_rod angle u L) as [q [Eq Hq]].
  exists m, q. split; [exact Em|]. split; [exact Eq|]. split; [exact Hm|]. split; [intros; rewrite Hm, Hq; reflexivity|].
  destruct (rodrigues_rigid u (angle * kdeg) L) as [I [K F]]. split; [|split].
  - intros p p'. rewrite !Hm. apply I.
  - intros a b c d. rewrite !Hm. apply K.
  - intros k. rewrite Hm. apply F.
Qed.

Lemma rod_comp u c1 s1 c2 s2 p : dot3 u u = 1 ->
  rod u c1 s1 (rod u c2 s2 p) = rod u (c1 * c2 - s1 * s2) (s1 * c2 + c1 * s2) p.
Proof.
  intros U. unfold rod.
  set (D := dot3 u p).
  assert (dot3 u (add3 (add3 (scal3 c2 p) (scal3 s2 (cross3 u p))) (scal3 ((1 - c2) * D) u)) = c2 * D + (1 - c2) * D * dot3 u u) as ->.
  { unfold D, dot3, add3, scal3, cross3. cbn. ring. }
  rewrite U.
  assert (cross3 u (add3 (add3 (scal3 c2 p) (scal3 s2 (cross3 u p))) (scal3 ((1 - c2) * D) u)) =
    add3 (scal3 c2 (cross3 u p)) (sub3 (scal3 (s2 * D) u) (scal3 (s2 * dot3 u u) p))) as ->.
  { unfold D, dot3, add3, sub3, scal3, cross3. cbn. apply P_eq; ring. }
  rewrite U. set (w := cross3 u p). clearbody D w. unfold add3, sub3, scal3. cbn. apply P_eq; ring.
Qed.

Lemma rodrigues_comp u a b p : len3 u = 1 -> rodrigues u a (rodrigues u b p) = rodrigues u (a + b) p.
Proof.
  intros L. apply len1 in L. change (rodrigues u a (rodrigues u b p)) with (rod u (cos a) (sin a) (rod u (cos b) (sin b) p)).
  rewrite rod_comp by exact L. unfold rodrigues. rewrite cos_plus, sin_plus. reflexivity.
Qed.

Lemma rodrigues_0 u p : rodrigues u 0 p = p.
Proof. unfold rodrigues. rewrite cos_0, sin_0. rewrite (pt_eta p) at 4. unfold add3, scal3, cross3. cbn. apply P_eq; ring. Qed.

Lemma rotations_compose u a b : len3 u = 1 ->
  exists ma mb mab mi mz,
    mat_from_angle_axis a u = Ok ma /\ mat_from_angle_axis b u = Ok mb /\ mat_from_angle_axis (a + b) u = Ok mab /\
    mat_from_angle_axis (- a) u = Ok mi /\ mat_from_angle_axis 0 u = Ok mz /\
    forall p, mat_apply mb (mat_apply ma p) = mat_apply mab p /\
              mat_apply mi (mat_apply ma p) = p /\ mat_apply mz p = p.
Proof.
  intros L. destruct (mat_rod a u) as [ma [Ea Ha]]. destruct (mat_rod b u) as [mb [Eb Hb]].
  destruct (mat_rod (a + b) u) as [mab [Eab Hab]]. destruct (mat_rod (- a) u) as [mi [Ei Hi]]. destruct (mat_rod 0 u) as [mz [Ez Hz]].
  exists ma, mb, mab, mi, mz. do 5 (split; [assumption|]). intros p. rewrite Hz, Ha, Hb, Hab, Hi, !rodrigues_comp by exact L.
  split; [f_equal; ring|]. split.
  - replace (- a * kdeg + a * kdeg) with 0 by ring. apply rodrigues_0.
  - replace (0 * kdeg) with 0 by ring. apply rodrigues_0.
Qed.

(** ** Euler angles *)

Lemma euler_facts yaw pitch roll : exists e, euler_set yaw pitch roll = Ok e /\
  (forall p q, dist3 (euler_apply e p) (euler_apply e q) = dist3 p q) /\
  (forall o p q r, det3 (sub3 (euler_apply e p) (euler_apply e o)) (sub3 (euler_apply e q) (euler_apply e o)) (sub3 (euler_apply e r) (euler_apply e o))
     = - det3 (sub3 p o) (sub3 q o) (sub3 r o)).
Proof.
  unfold euler_set. rewrite deg_to_rad_R. cbn [bind]. eexists. split; [reflexivity|].
  pose proof (cs1 (yaw * kdeg)) as Y. pose proof (cs1 (pitch * kdeg)) as P. pose proof (cs1 (roll * kdeg)) as Q.
  cbn [nmul RNum ncos nsin RTrig].
  set (cy := cos (yaw * kdeg)) in *. set (sy := sin (yaw * kdeg)) in *.
  set (cp := cos (pitch * kdeg)) in *. set (sp := sin (pitch * kdeg)) in *.
  set (cr := cos (roll * kdeg)) in *. set (sr := sin (roll * kdeg)) in *. clearbody cy sy cp sp cr sr.
  assert (sy * sy = 1 - cy * cy) as Y' by lra. assert (sp * sp = 1 - cp * cp) as P' by lra. assert (sr * sr = 1 - cr * cr) as Q' by lra.
  split.
  - intros p q. unfold dist3, len3. f_equal. unfold euler_apply. cbn. unfold dot3, sub3. cbn.
    set (x := px p - px q). set (y := py p - py q). set (z := pz p - pz q).
    assert (px p = x + px q) as -> by (unfold x; ring). assert (py p = y + py q) as -> by (unfold y; ring). assert (pz p = z + pz q) as -> by (unfold z; ring).
    clearbody x y z. ring [Y' P' Q'].
  - intros o p q r. unfold euler_apply. cbn. unfold sub3. cbn.
    set (x1 := px p - px o). set (y1 := py p - py o). set (z1 := pz p - pz o).
    set (x2 := px q - px o). set (y2 := py q - py o). set (z2 := pz q - pz o).
    set (x3 := px r - px o). set (y3 := py r - py o). set (z3 := pz r - pz o).
    assert (px p = x1 + px o) as -> by (unfold x1; ring). assert (py p = y1 + py o) as -> by (unfold y1; ring). assert (pz p = z1 + pz o) as -> by (unfold z1; ring).
    assert (px q = x2 + px o) as -> by (unfold x2; ring). assert (py q = y2 + py o) as -> by (unfold y2; ring). assert (pz q = z2 + pz o) as -> by (unfold z2; ring).
    assert (px r = x3 + px o) as -> by (unfold x3; ring). assert (py r = y3 + py o) as -> by (unfold y3; ring). assert (pz r = z3 + pz o) as -> by (unfold z3; ring).
    clearbody x1 y1 z1 x2 y2 z2 x3 y3 z3.
    transitivity (- ((cy * cy + sy * sy) * (cp * cp + sp * sp) * (cr * cr + sr * sr)) * det3 (mkP x1 y1 z1) (mkP x2 y2 z2) (mkP x3 y3 z3)).
    + unfold det3, cross3, dot3. cbn. ring.
    + rewrite Y, P, Q. ring.
Qed.

Lemma euler_zero : exists e, euler_set 0 0 0 = Ok e /\ forall p, euler_apply e p = mkP (px p) (- py p) (pz p).
Proof.
  unfold euler_set. rewrite deg_to_rad_R. cbn [bind]. eexists. split; [reflexivity|].
  intros p. unfold euler_apply. cbn. rewrite Rmult_0_l, cos_0, sin_0. apply P_eq; ring.
Qed.

Lemma apply_all_spec {T} (f : Point3 T -> Point3 T) l :
  length (apply_all f l) = length l /\ forall i, nth_error (apply_all f l) i = option_map f (nth_error l i).
Proof. unfold apply_all. split; [apply map_length|intros; apply nth_error_map]. Qed.

Lemma translation_scale_effect (u p : pt3) (a b c : R) :
  translation u p = mkP (px p + px u) (py p + py u) (pz p + pz u) /\ scale a b c p = mkP (a * px p) (b * py p) (c * pz p).
Proof. split; unfold translation, scale, padd; cbn; f_equal; ring. Qed.
Lemma translations_compose (u v p : pt3) :
  translation v (translation u p) = translation (add3 u v) p /\
  translation (scal3 (-1) u) (translation u p) = p /\
  translation O3 p = p.
Proof.
  unfold translation, padd. cbn. repeat split; [apply P_eq; ring| |]; rewrite (pt_eta p) at 4; apply P_eq; ring.
Qed.

Lemma scales_compose a b c a' b' c' (p : pt3) :
  scale a' b' c' (scale a b c p) = scale (a * a') (b * b') (c * c') p /\
  scale 1 1 1 p = p /\
  (a <> 0 -> b <> 0 -> c <> 0 -> scale (/ a) (/ b) (/ c) (scale a b c p) = p).
Proof.
  unfold scale. cbn. split; [apply P_eq; ring|]. split; [rewrite (pt_eta p) at 4; apply P_eq; ring|].
  intros. rewrite (pt_eta p) at 4. apply P_eq; field; assumption.
Qed.
