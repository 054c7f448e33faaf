(** Round solids: distance from the ideal angles. *)
From Coq Require Import ZArith List Bool Lia Reals Lra Psatz.
From Verif Require Import Base Num MGeometry MKernel MMesh MMeshRun MMeasure MUtil MMeshFactory SMesh SReach SGeom SMeasure SMeshFac SRound LBase LMesh LReach LGeom LMeasure LMeasure2 LMeshFac LMeshFac2 LMeshFac3 LMeshFac4 LMeshFac5 LPi LRound LRound2.
Import ListNotations.
Open Scope R_scope.

Definition e_ : R := PI - pi_lit.
Lemma pi_lit_R : pi_lit = PI - e_. Proof. unfold e_. ring. Qed.
Lemma e_small : 0 < e_ < / 100000000000000000000000000.
Proof. unfold e_, pi_lit. cbn. pose proof pi_bounds. lra. Qed.
Lemma PI_small : 3 < PI < 32 / 10. Proof. pose proof pi_bounds. lra. Qed.

Lemma sin_abs_le x : Rabs (sin x) <= Rabs x.
Proof.
  assert (forall y, 0 <= y -> Rabs (sin y) <= y) as P.
  { intros y Hy. destruct (Rle_dec 1 y) as [L|L]; [apply Rle_trans with 1; [apply Rabs_le; apply SIN_bound|exact L]|].
    destruct Hy as [Hy|<-]; [|rewrite sin_0, Rabs_R0; lra]. rewrite Rabs_pos_eq; [left; apply sin_lt_x; exact Hy|]. left. apply sin_gt_0; [exact Hy|]. pose proof PI_small. lra. }
  destruct (Rle_dec 0 x) as [L|L]; [rewrite (Rabs_pos_eq x) by exact L; apply P; exact L|].
  rewrite <- (Rabs_Ropp (sin x)), <- (Rabs_Ropp x), <- sin_neg, (Rabs_pos_eq (- x)) by lra. apply P. lra.
Qed.
Lemma abs_cos x : Rabs (cos x) <= 1. Proof. apply Rabs_le, COS_bound. Qed.
Lemma abs_sin x : Rabs (sin x) <= 1. Proof. apply Rabs_le, SIN_bound. Qed.
Lemma sin_lip x y : Rabs (sin x - sin y) <= Rabs (x - y).
Proof.
  rewrite form4. rewrite !Rabs_mult. rewrite (Rabs_pos_eq 2) by lra. pose proof (abs_cos ((x + y) / 2)). pose proof (sin_abs_le ((x - y) / 2)).
  unfold Rdiv in H0 at 2. rewrite (Rabs_mult (x - y) (/ 2)) in H0. rewrite (Rabs_pos_eq (/ 2)) in H0 by lra. pose proof (Rabs_pos (sin ((x - y) / 2))). pose proof (Rabs_pos (cos ((x + y) / 2))). nra.
Qed.
Lemma cos_lip x y : Rabs (cos x - cos y) <= Rabs (x - y).
Proof.
  rewrite form2. rewrite !Rabs_mult. replace (Rabs (-2)) with 2 by (rewrite Rabs_left; lra). pose proof (abs_sin ((x + y) / 2)). pose proof (sin_abs_le ((x - y) / 2)).
  unfold Rdiv in H0 at 2. rewrite (Rabs_mult (x - y) (/ 2)) in H0. rewrite (Rabs_pos_eq (/ 2)) in H0 by lra. pose proof (Rabs_pos (sin ((x - y) / 2))). pose proof (Rabs_pos (sin ((x + y) / 2))). nra.
Qed.

Lemma angle_R i N : (0 < N)%Z -> angle i N = IZR i * (2 * pi_lit / IZR N).
Proof. intros H. unfold angle. rewrite dv_R by exact H. cbn. assert (IZR N <> 0) by (apply not_0_IZR; lia). field. assumption. Qed.
Lemma lat_R M j : (0 < M)%Z -> lat M j = IZR j * (pi_lit / IZR M).
Proof. intros H. unfold lat. rewrite dv_R by exact H. assert (IZR M <> 0) by (apply not_0_IZR; lia). field. assumption. Qed.

(** ** One full turn *)
Lemma wedge_sin N i k : wedge N i k = sin (angle k N - angle i N).
Proof. unfold wedge, cosa, sina. rewrite sin_minus. ring. Qed.
Lemma wedge_step N i : (0 < N)%Z -> wedge N i (i + 1) = sin (2 * pi_lit / IZR N).
Proof. intros H. rewrite wedge_sin, !angle_R by exact H. f_equal. rewrite plus_IZR. ring. Qed.
Lemma wedge_close N : (0 < N)%Z -> wedge N (N - 1) 0 = sin (2 * pi_lit / IZR N + 2 * e_).
Proof.
  intros H. assert (IZR N <> 0) by (apply not_0_IZR; lia). rewrite wedge_sin, !angle_R by exact H. rewrite minus_IZR, pi_lit_R.
  rewrite <- (sin_period _ 1). f_equal. cbn [INR]. field. assumption.
Qed.
Lemma wedges_eq N : (0 < N)%Z -> wedges N = IZR (N - 1) * sin (2 * pi_lit / IZR N) + sin (2 * pi_lit / IZR N + 2 * e_).
Proof.
  intros H. unfold wedges. rewrite (rsum_cycle_split (wedge N)) by exact H. rewrite wedge_close by exact H. f_equal.
  rewrite (rsum_ext _ (fun _ => sin (2 * pi_lit / IZR N))) by (intros i _; apply wedge_step; exact H). rewrite rsum_const by lia. f_equal. f_equal. lia.
Qed.
Lemma gon_le N : (1 <= N)%Z -> Rabs (gon N) <= 2 * PI.
Proof.
  intros H. assert (1 <= IZR N) by (apply IZR_le; lia). unfold gon. rewrite Rabs_mult, (Rabs_pos_eq (IZR N)) by lra. pose proof PI_small.
  pose proof (sin_abs_le (2 * PI / IZR N)) as S. assert (0 < / IZR N) by (apply Rinv_0_lt_compat; lra).
  rewrite (Rabs_pos_eq (2 * PI / IZR N)) in S by (apply Rmult_le_pos; lra).
  apply Rle_trans with (IZR N * (2 * PI / IZR N)); [apply Rmult_le_compat_l; lra|]. right. field. lra.
Qed.
Lemma wedges_near N : (1 <= N)%Z -> Rabs (wedges N - gon N) <= 4 * e_.
Proof.
  intros H. assert (1 <= IZR N) as HN by (apply IZR_le; lia). rewrite wedges_eq by lia. unfold gon. set (a := 2 * pi_lit / IZR N). set (b := 2 * PI / IZR N). rewrite minus_IZR.
  replace ((IZR N - 1) * sin a + sin (a + 2 * e_) - IZR N * sin b) with ((IZR N - 1) * (sin a - sin b) + (sin (a + 2 * e_) - sin b)) by ring.
  pose proof e_small. assert (0 < / IZR N <= 1) as HI. { split; [apply Rinv_0_lt_compat; lra|]. rewrite <- Rinv_1. apply Rinv_le_contravar; lra. }
  assert (b - a = 2 * e_ * / IZR N) as AB by (unfold a, b; rewrite pi_lit_R; field; lra).
  pose proof (sin_lip a b) as S1. pose proof (sin_lip (a + 2 * e_) b) as S2.
  replace (a - b) with (- (2 * e_ * / IZR N)) in S1 by lra. rewrite Rabs_Ropp, (Rabs_pos_eq (2 * e_ * / IZR N)) in S1 by nra.
  replace (a + 2 * e_ - b) with (2 * e_ * (1 - / IZR N)) in S2 by lra. rewrite (Rabs_pos_eq (2 * e_ * (1 - / IZR N))) in S2 by nra.
  eapply Rle_trans; [apply Rabs_triang|]. rewrite Rabs_mult, (Rabs_pos_eq (IZR N - 1)) by lra.
  assert ((IZR N - 1) * Rabs (sin a - sin b) <= (IZR N - 1) * (2 * e_ * / IZR N)) as T by (apply Rmult_le_compat_l; lra).
  replace ((IZR N - 1) * (2 * e_ * / IZR N)) with (2 * e_ * (1 - / IZR N)) in T by (field; lra). nra.
Qed.

(** ** Half a turn *)
Lemma meridian_eq M : (2 <= M)%Z -> let d := pi_lit / IZR M in
  meridian M = 1 + cos d + (cos (2 * d + e_) + 2 * cos (d + e_) + cos e_) / 2 + sin (d + e_) * sin (d + e_).
Proof.
  intros H d. assert (2 <= IZR M) as HM by (apply IZR_le; lia). unfold meridian.
  assert (forall j, lat M j = IZR j * d) as L by (intros j; apply lat_R; lia).
  set (F := fun j => - (cos (IZR (j - 1) * d) + 2 * cos (IZR j * d) + cos (IZR (j + 1) * d)) / 2).
  rewrite (rsum_ext _ (fun j => F (j + 1)%Z - F j)).
  - rewrite rsum_tele by lia. rewrite !L. unfold F.
    assert (forall x, cos (IZR M * d - x) = - cos (x + e_)) as CM.
    { intros x. unfold d. rewrite pi_lit_R. replace (IZR M * ((PI - e_) / IZR M) - x) with (PI - (x + e_)) by (field; lra). rewrite cos_minus, cos_PI, sin_PI. ring. }
    assert (forall x, sin (IZR M * d - x) = sin (x + e_)) as SM.
    { intros x. unfold d. rewrite pi_lit_R. replace (IZR M * ((PI - e_) / IZR M) - x) with (PI - (x + e_)) by (field; lra). rewrite sin_minus, cos_PI, sin_PI. ring. }
    replace (IZR (M - 1 - 1) * d) with (IZR M * d - 2 * d) by (rewrite !minus_IZR; ring). replace (IZR (M - 1) * d) with (IZR M * d - d) by (rewrite !minus_IZR; ring).
    replace (IZR (M - 1 + 1) * d) with (IZR M * d - 0) by (rewrite plus_IZR, minus_IZR; ring).
    rewrite !CM, SM. rewrite Rplus_0_l. replace (IZR (1 - 1) * d) with 0 by (cbn; ring). replace (IZR (1 + 1) * d) with (2 * d) by (cbn; ring). replace (IZR 1 * d) with d by ring.
    rewrite cos_0, (cos_2a_cos d). pose proof (sin2_cos2 d) as SC. unfold Rsqr in SC. replace (sin d * sin d) with (1 - cos d * cos d) by lra. field.
  - intros j _. rewrite !L. unfold F. replace (j + 1 - 1)%Z with j by lia. replace (IZR (j + 1) * d - IZR j * d) with d by (rewrite plus_IZR; ring).
    replace (IZR (j + 1 + 1) * d) with (IZR (j + 1) * d + d) by (rewrite (plus_IZR (j + 1)); ring). replace (IZR (j - 1) * d) with (IZR j * d - d) by (rewrite minus_IZR; ring).
    replace (cos (IZR (j + 1) * d + d)) with (cos (IZR (j + 1) * d) * cos d - sin (IZR (j + 1) * d) * sin d) by (symmetry; apply cos_plus).
    rewrite cos_minus.
    assert (cos (IZR j * d) = cos (IZR (j + 1) * d) * cos d + sin (IZR (j + 1) * d) * sin d) as E1. { rewrite <- cos_minus. f_equal. rewrite plus_IZR. ring. }
    assert (cos (IZR (j + 1) * d) = cos (IZR j * d) * cos d - sin (IZR j * d) * sin d) as E2. { rewrite <- cos_plus. f_equal. rewrite plus_IZR. ring. }
    lra.
Qed.
Lemma meridian_near M : (2 <= M)%Z -> Rabs (meridian M - (2 + 2 * cos (PI / IZR M))) <= 6 * e_.
Proof.
  intros H. pose proof (meridian_eq M H) as E. cbv zeta in E. rewrite E. clear E. assert (2 <= IZR M) as HM by (apply IZR_le; lia). set (d := pi_lit / IZR M). set (d0 := PI / IZR M). pose proof e_small.
  assert (0 < / IZR M <= 1) as HI. { split; [apply Rinv_0_lt_compat; lra|]. rewrite <- Rinv_1. apply Rinv_le_contravar; lra. }
  assert (d0 - d = e_ * / IZR M) as AB by (unfold d, d0; rewrite pi_lit_R; field; lra).
  pose proof (cos_lip (2 * d + e_) (2 * d)) as C1. pose proof (cos_lip (d + e_) d) as C2. pose proof (cos_lip e_ 0) as C3. pose proof (sin_lip (d + e_) d) as S1. pose proof (cos_lip d d0) as C4.
  replace (2 * d + e_ - 2 * d) with e_ in C1 by ring. replace (d + e_ - d) with e_ in C2, S1 by ring. rewrite Rminus_0_r in C3. rewrite (Rabs_pos_eq e_) in * by lra.
  assert (Rabs (d - d0) <= e_) as D by (apply Rabs_le; nra).
  rewrite cos_0 in C3. rewrite (cos_2a_cos d) in C1. pose proof (sin2_cos2 d) as SC. unfold Rsqr in SC.
  set (s := sin (d + e_)) in *. set (u := sin d) in *. pose proof (SIN_bound (d + e_)) as B1. fold s in B1. pose proof (SIN_bound d) as B2. fold u in B2.
  assert (Rabs (s * s - u * u) <= 2 * e_) as SS. { replace (s * s - u * u) with ((s - u) * (s + u)) by ring. rewrite Rabs_mult. pose proof (Rabs_pos (s - u)). assert (Rabs (s + u) <= 2) by (apply Rabs_le; lra). pose proof (Rabs_pos (s + u)). nra. }
  assert (forall x y, Rabs x <= y -> - y <= x <= y) as AB2. { intros x y Hxy. split; [pose proof (Rle_abs (- x)) as Q; rewrite Rabs_Ropp in Q; lra|pose proof (Rle_abs x); lra]. }
  apply AB2 in C1, C2, C3, C4, SS. assert (Rabs (d - d0) <= e_) as D2 by exact D. apply Rabs_le. lra.
Qed.

(** ** The small circle of a torus *)
Lemma cosw_eq M : (1 <= M)%Z -> let d := 2 * pi_lit / IZR M in cosw M = (sin (2 * (d + 2 * e_)) - sin (2 * d + 2 * e_) - sin (2 * e_)) / 2.
Proof.
  intros H d. assert (1 <= IZR M) as HM by (apply IZR_le; lia). unfold cosw. rewrite (rsum_cycle_split (fun j k => wedge M j k * (cosa M j + cosa M k))) by lia.
  assert (forall j, angle j M = IZR j * d) as L by (intros j; apply angle_R; lia).
  set (F := fun j => (sin (IZR (j - 1) * d) + 2 * sin (IZR j * d) + sin (IZR (j + 1) * d)) / 2).
  rewrite (rsum_ext _ (fun j => F (j + 1)%Z - F j)).
  - rewrite rsum_tele by lia. rewrite wedge_close by lia. fold d. unfold cosa. rewrite !L. unfold F.
    assert (forall x, cos (IZR M * d - x) = cos (x + 2 * e_)) as CM.
    { intros x. unfold d. rewrite pi_lit_R. replace (IZR M * (2 * (PI - e_) / IZR M) - x) with (2 * PI - (x + 2 * e_)) by (field; lra). rewrite cos_minus, cos_2PI, sin_2PI. ring. }
    assert (forall x, sin (IZR M * d - x) = - sin (x + 2 * e_)) as SM.
    { intros x. unfold d. rewrite pi_lit_R. replace (IZR M * (2 * (PI - e_) / IZR M) - x) with (2 * PI - (x + 2 * e_)) by (field; lra). rewrite sin_minus, cos_2PI, sin_2PI. ring. }
    replace (IZR (M - 1 - 1) * d) with (IZR M * d - 2 * d) by (rewrite !minus_IZR; ring). replace (IZR (M - 1) * d) with (IZR M * d - d) by (rewrite !minus_IZR; ring).
    replace (IZR (M - 1 + 1) * d) with (IZR M * d - 0) by (rewrite plus_IZR, minus_IZR; ring).
    rewrite !SM, CM, Rplus_0_l. replace (IZR (0 - 1) * d) with (- d) by (cbn; ring). replace (IZR (0 + 1) * d) with d by (cbn; ring). rewrite Rmult_0_l, sin_0, cos_0, sin_neg, (sin_2a (d + 2 * e_)). field.
  - intros j _. rewrite wedge_step by lia. fold d. unfold cosa. rewrite !L. unfold F. replace (j + 1 - 1)%Z with j by lia.
    replace (IZR (j + 1 + 1) * d) with (IZR (j + 1) * d + d) by (rewrite (plus_IZR (j + 1)); ring). replace (IZR (j - 1) * d) with (IZR j * d - d) by (rewrite minus_IZR; ring).
    rewrite sin_plus, sin_minus.
    assert (sin (IZR j * d) = sin (IZR (j + 1) * d) * cos d - cos (IZR (j + 1) * d) * sin d) as E1. { rewrite <- sin_minus. f_equal. rewrite plus_IZR. ring. }
    assert (sin (IZR (j + 1) * d) = sin (IZR j * d) * cos d + cos (IZR j * d) * sin d) as E2. { rewrite <- sin_plus. f_equal. rewrite plus_IZR. ring. }
    lra.
Qed.
Lemma cosw_small M : (1 <= M)%Z -> Rabs (cosw M) <= 2 * e_.
Proof.
  intros H. pose proof (cosw_eq M H) as E. cbv zeta in E. rewrite E. clear E. set (d := 2 * pi_lit / IZR M). pose proof e_small.
  pose proof (sin_lip (2 * (d + 2 * e_)) (2 * d + 2 * e_)) as S1. replace (2 * (d + 2 * e_) - (2 * d + 2 * e_)) with (2 * e_) in S1 by ring.
  pose proof (sin_abs_le (2 * e_)) as S2. rewrite (Rabs_pos_eq (2 * e_)) in * by lra.
  assert (forall x y, Rabs x <= y -> - y <= x <= y) as AB2. { intros x y Hxy. split; [pose proof (Rle_abs (- x)) as Q; rewrite Rabs_Ropp in Q; lra|pose proof (Rle_abs x); lra]. }
  apply AB2 in S1, S2. apply Rabs_le. lra.
Qed.
