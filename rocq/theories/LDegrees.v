(** Rotations: how far degrees are from radians times the program's literal; new rotations. *)
From Coq Require Import Reals ZArith List Bool Lra Lia Psatz.
From Verif Require Import Base Num MGeometry MTransform SGeom SDegrees LBase LGeom LTransform LPi.
Open Scope R_scope.

Lemma sin_le_abs x : Rabs (sin x) <= Rabs x.
Proof.
  assert (forall y, 0 <= y -> Rabs (sin y) <= y) as H.
  { intros y Hy. destruct (Rle_dec y 1) as [L|L].
    - destruct (Rle_lt_or_eq_dec 0 y Hy) as [P|<-]; [|rewrite sin_0, Rabs_R0; lra].
      pose proof (sin_lt_x y P). pose proof PI2_1. pose proof (sin_ge_0 y Hy ltac:(lra)). rewrite Rabs_pos_eq by assumption. lra.
    - pose proof (SIN_bound y) as [A B]. apply Rabs_le. lra. }
  destruct (Rle_dec 0 x); [rewrite (Rabs_pos_eq x) by assumption; apply H; assumption|].
  rewrite <- (Ropp_involutive x) at 1. rewrite sin_neg, Rabs_Ropp, (Rabs_left x) by lra. apply H. lra.
Qed.
(** A chord is not longer than its arc. *)
Lemma chord a b : (cos a - cos b) * (cos a - cos b) + (sin a - sin b) * (sin a - sin b) <= (a - b) * (a - b).
Proof.
  assert ((cos a - cos b) * (cos a - cos b) + (sin a - sin b) * (sin a - sin b) = 4 * (sin ((a - b) / 2) * sin ((a - b) / 2))) as ->.
  { rewrite form2, form4. set (h := (a - b) / 2). set (k := (a + b) / 2). pose proof (sin2_cos2 k) as Q. unfold Rsqr in Q.
    transitivity (4 * (sin h * sin h) * (sin k * sin k + cos k * cos k)); [ring|]. rewrite Q. ring. }
  pose proof (sin_le_abs ((a - b) / 2)) as H. set (x := (a - b) / 2) in *. replace (a - b) with (2 * x) by (unfold x; field).
  pose proof (Rabs_pos (sin x)). assert (sin x * sin x <= x * x) as Q; [|lra].
  rewrite <- (Rabs_right (sin x * sin x)) by nra. rewrite <- (Rabs_right (x * x)) by nra. rewrite !Rabs_mult. apply Rmult_le_compat; assumption.
Qed.
Lemma rodrigues_close u a b p : len3 u = 1 -> dist3 (rodrigues u a p) (rodrigues u b p) <= Rabs (a - b) * len3 p.
Proof.
  intros U. apply len1 in U. unfold dist3. apply Rsqr_incr_0_var; [|apply Rmult_le_pos; [apply Rabs_pos|apply len3_nonneg]].
  unfold Rsqr. rewrite len3_sq. replace (Rabs (a - b) * len3 p * (Rabs (a - b) * len3 p)) with ((a - b) * (a - b) * dot3 p p).
  2:{ rewrite <- len3_sq. assert (Rabs (a - b) * Rabs (a - b) = (a - b) * (a - b)) as <- by (rewrite <- Rabs_mult; apply Rabs_pos_eq, (Rle_0_sqr (a - b))). ring. }
  pose proof (chord a b) as C.
  assert (dot3 (sub3 (rodrigues u a p) (rodrigues u b p)) (sub3 (rodrigues u a p) (rodrigues u b p)) =
    (dot3 p p - dot3 u p * dot3 u p) * ((cos a - cos b) * (cos a - cos b) + (sin a - sin b) * (sin a - sin b))) as ->.
  { transitivity ((cos a - cos b) * (cos a - cos b) * (dot3 p p - dot3 u p * dot3 u p + (dot3 u u - 1) * dot3 u p * dot3 u p)
      + (sin a - sin b) * (sin a - sin b) * (dot3 p p * dot3 u u - dot3 u p * dot3 u p)).
    - unfold rodrigues, add3, sub3, scal3, cross3, dot3. cbn. ring.
    - rewrite U. ring. }
  assert (0 <= dot3 p p - dot3 u p * dot3 u p) as D. { replace (dot3 p p - dot3 u p * dot3 u p) with (dot3 (cross3 u p) (cross3 u p)); [apply dot3_nonneg|]. transitivity (dot3 u u * dot3 p p - dot3 u p * dot3 u p); [unfold cross3, dot3; cbn; ring|rewrite U; ring]. }
  assert (0 <= dot3 u p * dot3 u p) by nra. 
  set (X := (cos a - cos b) * (cos a - cos b) + (sin a - sin b) * (sin a - sin b)) in *. set (Y := (a - b) * (a - b)) in *.
  assert (0 <= X) by (unfold X; apply Rplus_le_le_0_compat; apply Rle_0_sqr). rewrite (Rmult_comm Y). apply Rmult_le_compat; lra.
Qed.

Lemma kdeg_error a : Rabs (a * kdeg - a * (PI / 180)) <= Rabs a * (115 / 100000000000000000).
Proof.
  replace (a * kdeg - a * (PI / 180)) with (a * (kdeg - PI / 180)) by ring. rewrite Rabs_mult. apply Rmult_le_compat_l; [apply Rabs_pos|].
  pose proof pi_bounds. unfold kdeg. apply Rabs_le. lra.
Qed.
Lemma angle_axis_degrees angle u : len3 u = 1 -> exists m q, mat_from_angle_axis angle u = Ok m /\ quat_from_angle_axis angle u = Ok q /\
  forall p, dist3 (mat_apply m p) (turn_deg u angle p) <= slack angle (len3 p) /\ dist3 (quat_apply q p) (turn_deg u angle p) <= slack angle (len3 p).
Proof.
  intros U. destruct (mat_rod angle u) as [m [E1 H1]]. destruct (quat_rod angle u U) as [q [E2 H2]]. exists m, q. split; [exact E1|]. split; [exact E2|].
  intros p. rewrite H1, H2. assert (dist3 (rodrigues u (angle * kdeg) p) (turn_deg u angle p) <= slack angle (len3 p)); [|split; assumption].
  eapply Rle_trans; [apply rodrigues_close; exact U|]. apply Rmult_le_compat_r; [apply len3_nonneg|apply kdeg_error].
Qed.

(** Euler angles *)
Notation flip_y := mirror_y.
Lemma rodrigues_x a (p : pt3) : rodrigues (mkP 1 0 0) a p = mkP (px p) (py p * cos a - pz p * sin a) (pz p * cos a + py p * sin a).
Proof. unfold rodrigues, add3, scal3, cross3, dot3. cbn [px py pz]. apply P_eq; ring. Qed.
Lemma rodrigues_y a (p : pt3) : rodrigues (mkP 0 1 0) a p = mkP (px p * cos a + pz p * sin a) (py p) (pz p * cos a - px p * sin a).
Proof. unfold rodrigues, add3, scal3, cross3, dot3. cbn [px py pz]. apply P_eq; ring. Qed.
Lemma rodrigues_z a (p : pt3) : rodrigues (mkP 0 0 1) a p = mkP (px p * cos a - py p * sin a) (py p * cos a + px p * sin a) (pz p).
Proof. unfold rodrigues, add3, scal3, cross3, dot3. cbn [px py pz]. apply P_eq; ring. Qed.
Lemma euler_decomposed yaw pitch roll : exists e, euler_set yaw pitch roll = Ok e /\
  forall p, euler_apply e p = rodrigues (mkP 0 0 1) (- (roll * kdeg)) (rodrigues (mkP 1 0 0) (- (pitch * kdeg)) (flip_y (rodrigues (mkP 0 1 0) (yaw * kdeg) p))).
Proof.
  unfold euler_set. rewrite deg_to_rad_R. cbn [bind]. eexists. split; [reflexivity|]. intros p. rewrite rodrigues_z, rodrigues_x, rodrigues_y.
  unfold mirror_y, euler_apply. cbn [px py pz eyc eys epc eps erc ers nmul nadd nsub RNum ncos nsin RTrig]. rewrite !cos_neg, !sin_neg. apply P_eq; ring.
Qed.
Lemma unit_x : len3 (mkP 1 0 0) = 1. Proof. unfold len3, dot3. cbn. replace (1 * 1 + 0 * 0 + 0 * 0) with 1 by ring. apply sqrt_1. Qed.
Lemma unit_y : len3 (mkP 0 1 0) = 1. Proof. unfold len3, dot3. cbn. replace (0 * 0 + 1 * 1 + 0 * 0) with 1 by ring. apply sqrt_1. Qed.
Lemma unit_z : len3 (mkP 0 0 1) = 1. Proof. unfold len3, dot3. cbn. replace (0 * 0 + 0 * 0 + 1 * 1) with 1 by ring. apply sqrt_1. Qed.
Lemma rodrigues_dist u a p q : len3 u = 1 -> dist3 (rodrigues u a p) (rodrigues u a q) = dist3 p q.
Proof.
  intros U. apply len1 in U. change (rodrigues u a) with (rod u (cos a) (sin a)). unfold dist3. rewrite rod_sub. unfold len3. rewrite rod_len; [reflexivity|exact U|].
  pose proof (sin2_cos2 a) as Q. unfold Rsqr in Q. lra.
Qed.
Lemma rodrigues_len u a p : len3 u = 1 -> len3 (rodrigues u a p) = len3 p.
Proof. intros U. apply len1 in U. change (rodrigues u a) with (rod u (cos a) (sin a)). unfold len3. rewrite rod_len; [reflexivity|exact U|]. pose proof (sin2_cos2 a) as Q. unfold Rsqr in Q. lra. Qed.
Lemma flip_dist p q : dist3 (flip_y p) (flip_y q) = dist3 p q.
Proof. unfold dist3, len3, dot3, sub3, mirror_y. cbn. f_equal. ring. Qed.
Lemma flip_len p : len3 (flip_y p) = len3 p.
Proof. unfold len3, dot3, mirror_y. cbn. f_equal. ring. Qed.
Lemma euler_degrees yaw pitch roll : exists e, euler_set yaw pitch roll = Ok e /\
  forall p, dist3 (euler_apply e p) (turn_deg (mkP 0 0 1) (- roll) (turn_deg (mkP 1 0 0) (- pitch) (mirror_y (turn_deg (mkP 0 1 0) yaw p))))
    <= slack yaw (len3 p) + slack pitch (len3 p) + slack roll (len3 p).
Proof.
  destruct (euler_decomposed yaw pitch roll) as [e [E H]]. exists e. split; [exact E|]. intros p. rewrite H. unfold turn_deg, slack.
  rewrite <- !Ropp_mult_distr_l.
  set (y1 := rodrigues (mkP 0 1 0) (yaw * kdeg) p). set (y2 := rodrigues (mkP 0 1 0) (yaw * (PI / 180)) p).
  assert (len3 y1 = len3 p) as L1 by (apply rodrigues_len, unit_y).
  assert (dist3 y1 y2 <= Rabs yaw * (115 / 100000000000000000) * len3 p) as D1.
  { eapply Rle_trans; [apply rodrigues_close, unit_y|]. apply Rmult_le_compat_r; [apply len3_nonneg|apply kdeg_error]. }
  set (x1 := rodrigues (mkP 1 0 0) (- (pitch * kdeg)) (flip_y y1)). set (x2 := rodrigues (mkP 1 0 0) (- (pitch * (PI / 180))) (flip_y y2)).
  assert (forall a, Rabs (- (a * kdeg) - - (a * (PI / 180))) <= Rabs a * (115 / 100000000000000000)) as KN.
  { intros a. replace (- (a * kdeg) - - (a * (PI / 180))) with (- (a * kdeg - a * (PI / 180))) by ring. rewrite Rabs_Ropp. apply kdeg_error. }
  assert (len3 x1 = len3 p) as L2 by (unfold x1; rewrite rodrigues_len by apply unit_x; rewrite flip_len; exact L1).
  assert (dist3 x1 x2 <= (Rabs yaw + Rabs pitch) * (115 / 100000000000000000) * len3 p) as D2.
  { eapply Rle_trans; [apply (dist3_triangle x1 (rodrigues (mkP 1 0 0) (- (pitch * (PI / 180))) (flip_y y1)) x2)|].
    unfold x2 at 1. rewrite (rodrigues_dist _ _ _ _ unit_x), flip_dist.
    assert (dist3 x1 (rodrigues (mkP 1 0 0) (- (pitch * (PI / 180))) (flip_y y1)) <= Rabs pitch * (115 / 100000000000000000) * len3 p); [|lra].
    eapply Rle_trans; [apply rodrigues_close, unit_x|]. rewrite flip_len, L1. apply Rmult_le_compat_r; [apply len3_nonneg|apply KN]. }
  eapply Rle_trans; [apply (dist3_triangle _ (rodrigues (mkP 0 0 1) (- (roll * (PI / 180))) x1) _)|].
  rewrite (rodrigues_dist _ _ _ _ unit_z).
  assert (dist3 (rodrigues (mkP 0 0 1) (- (roll * kdeg)) x1) (rodrigues (mkP 0 0 1) (- (roll * (PI / 180))) x1) <= Rabs roll * (115 / 100000000000000000) * len3 p); [|lra].
  eapply Rle_trans; [apply rodrigues_close, unit_z|]. rewrite L2. apply Rmult_le_compat_r; [apply len3_nonneg|apply KN].
Qed.

(** New rotations *)
Lemma new_rotations (p : pt3) : mat_apply mat_id p = p /\ quat_apply quat_id p = p.
Proof. split; unfold mat_apply, quat_apply, mat_id, quat_id; cbn; destruct p; cbn; apply P_eq; ring. Qed.
