(** Round solids: where the vertices are, and the volumes. *)
From Coq Require Import ZArith List Bool Lia Reals Lra Psatz.
From Verif Require Import Base Num MGeometry MKernel MMesh MMeshRun MMeasure MUtil MMeshFactory SMesh SReach SGeom SMeasure SMeshFac SRound LBase LMesh LReach LGeom LMeasure LMeasure2 LMeshFac LMeshFac2 LMeshFac3 LMeshFac4 LMeshFac5 LPi LRound LRound2 LRound3.
Import ListNotations.
Open Scope R_scope.

Lemma abs_between x y : Rabs x <= y -> - y <= x <= y.
Proof. intros H. split; [pose proof (Rle_abs (- x)) as Q; rewrite Rabs_Ropp in Q; lra|pose proof (Rle_abs x); lra]. Qed.
Lemma dist_abs (p q : pt3) a b c : Rabs (px p - px q) <= a -> Rabs (py p - py q) <= b -> Rabs (pz p - pz q) <= c -> dist3 p q <= a + b + c.
Proof.
  intros A B C. pose proof (Rabs_pos (px p - px q)). pose proof (Rabs_pos (py p - py q)). pose proof (Rabs_pos (pz p - pz q)).
  unfold dist3, len3, dot3, sub3. cbn [px py pz]. apply Rle_trans with (sqrt ((a + b + c) * (a + b + c))); [|rewrite sqrt_square by lra; lra].
  assert (forall x y, Rabs x <= y -> x * x <= y * y) as SQ. { intros x y Hxy. apply abs_between in Hxy. nra. }
  assert (0 <= a) by lra. assert (0 <= b) by lra. assert (0 <= c) by lra. pose proof (Rmult_le_pos a b). pose proof (Rmult_le_pos b c). pose proof (Rmult_le_pos a c).
  apply SQ in A, B, C. apply sqrt_le_1_alt. replace ((a + b + c) * (a + b + c)) with (a * a + b * b + c * c + 2 * (a * b) + 2 * (b * c) + 2 * (a * c)) by ring. lra.
Qed.
(** A product of two numbers of size at most 1, both slightly changed. *)
Lemma prod_near s c s' c' x y : Rabs (s - s') <= x -> Rabs (c - c') <= y -> Rabs c <= 1 -> Rabs s' <= 1 -> Rabs (s * c - s' * c') <= x + y.
Proof.
  intros A B C D. replace (s * c - s' * c') with ((s - s') * c + s' * (c - c')) by ring. eapply Rle_trans; [apply Rabs_triang|]. rewrite !Rabs_mult.
  pose proof (Rabs_pos (s - s')). pose proof (Rabs_pos (c - c')). pose proof (Rabs_pos c). pose proof (Rabs_pos s'). nra.
Qed.

Lemma angle_near N k : (0 <= k < N)%Z -> Rabs (angle k N - part N k) <= 2 * e_.
Proof.
  intros H. rewrite angle_R by lia. unfold part. assert (0 <= IZR k) by (apply IZR_le; lia). assert (IZR k < IZR N) by (apply IZR_lt; lia). pose proof e_small.
  rewrite pi_lit_R. replace (IZR k * (2 * (PI - e_) / IZR N) - 2 * PI * IZR k / IZR N) with (- (2 * e_ * (IZR k / IZR N))) by (field; lra). rewrite Rabs_Ropp.
  assert (0 <= IZR k / IZR N <= 1). { split; [apply Rmult_le_pos; [lra|left; apply Rinv_0_lt_compat; lra]|]. apply (Rmult_le_reg_r (IZR N)); [lra|]. unfold Rdiv. rewrite Rmult_assoc, Rinv_l by lra. lra. }
  rewrite Rabs_pos_eq by nra. nra.
Qed.
Lemma lat_near M j : (0 <= j <= M)%Z -> (0 < M)%Z -> Rabs (lat M j - half_part M j) <= e_.
Proof.
  intros H HM. rewrite lat_R by lia. unfold half_part. assert (0 <= IZR j) by (apply IZR_le; lia). assert (IZR j <= IZR M) by (apply IZR_le; lia). assert (0 < IZR M) by (apply IZR_lt; lia). pose proof e_small.
  rewrite pi_lit_R. replace (IZR j * ((PI - e_) / IZR M) - PI * IZR j / IZR M) with (- (e_ * (IZR j / IZR M))) by (field; lra). rewrite Rabs_Ropp.
  assert (0 <= IZR j / IZR M <= 1). { split; [apply Rmult_le_pos; [lra|left; apply Rinv_0_lt_compat; lra]|]. apply (Rmult_le_reg_r (IZR M)); [lra|]. unfold Rdiv. rewrite Rmult_assoc, Rinv_l by lra. lra. }
  rewrite Rabs_pos_eq by nra. nra.
Qed.
Lemma cosa_near N k : (0 <= k < N)%Z -> Rabs (cosa N k - cos (part N k)) <= 2 * e_.
Proof. intros H. eapply Rle_trans; [apply cos_lip|]. apply angle_near, H. Qed.
Lemma sina_near N k : (0 <= k < N)%Z -> Rabs (sina N k - sin (part N k)) <= 2 * e_.
Proof. intros H. eapply Rle_trans; [apply sin_lip|]. apply angle_near, H. Qed.
Lemma tiny_e : 30 * e_ <= tiny. Proof. pose proof e_small. unfold tiny. lra. Qed.
Lemma scal_near r x y b : Rabs (x - y) <= b -> Rabs (r * x - r * y) <= Rabs r * b.
Proof. intros H. rewrite <- Rmult_minus_distr_l, Rabs_mult. apply Rmult_le_compat_l; [apply Rabs_pos|exact H]. Qed.

Lemma cyl_near r z N k : (0 <= k < N)%Z -> dist3 (mkP (cosa N k * r) (sina N k * r) z) (cylinder_point r z (part N k)) <= tiny * Rabs r.
Proof.
  intros H. pose proof e_small. pose proof tiny_e. pose proof (Rabs_pos r). eapply Rle_trans; [apply (dist_abs _ _ (Rabs r * (2 * e_)) (Rabs r * (2 * e_)) 0); cbn [px py pz cylinder_point]|].
  - rewrite (Rmult_comm (cosa N k)). apply scal_near, cosa_near, H.
  - rewrite (Rmult_comm (sina N k)). apply scal_near, sina_near, H.
  - rewrite Rminus_diag_eq, Rabs_R0 by reflexivity. lra.
  - nra.
Qed.
Lemma uv_near r N M i j : (0 <= i < N)%Z -> (0 <= j <= M)%Z -> (0 < M)%Z ->
  dist3 (mkP (r * sin (lat M j) * cosa N i) (r * sin (lat M j) * sina N i) (r * cos (lat M j))) (sphere_point r (part N i) (half_part M j)) <= tiny * Rabs r.
Proof.
  intros Hi Hj HM. pose proof e_small. pose proof tiny_e. pose proof (Rabs_pos r). pose proof (lat_near M j Hj HM) as L.
  eapply Rle_trans; [apply (dist_abs _ _ (Rabs r * (e_ + 2 * e_)) (Rabs r * (e_ + 2 * e_)) (Rabs r * e_)); cbn [px py pz sphere_point]|].
  - rewrite !Rmult_assoc. apply scal_near. apply prod_near; [eapply Rle_trans; [apply sin_lip|exact L]|apply cosa_near, Hi|apply abs_cos|apply abs_sin].
  - rewrite !Rmult_assoc. apply scal_near. apply prod_near; [eapply Rle_trans; [apply sin_lip|exact L]|apply sina_near, Hi|apply abs_sin|apply abs_sin].
  - apply scal_near. eapply Rle_trans; [apply cos_lip|exact L].
  - nra.
Qed.
Lemma torus_near rM rm N M i j : (0 <= i < N)%Z -> (0 <= j < M)%Z ->
  dist3 (mkP (ringr rM rm M j * cosa N i) (ringr rM rm M j * sina N i) (ringz rm M j)) (torus_point rM rm (part N i) (part M j)) <= tiny * (Rabs rM + Rabs rm).
Proof.
  intros Hi Hj. pose proof e_small. pose proof tiny_e. pose proof (Rabs_pos rM). pose proof (Rabs_pos rm).
  eapply Rle_trans; [apply (dist_abs _ _ (Rabs rM * (2 * e_) + Rabs rm * (2 * e_ + 2 * e_)) (Rabs rM * (2 * e_) + Rabs rm * (2 * e_ + 2 * e_)) (Rabs rm * (2 * e_))); cbn [px py pz torus_point]; unfold ringr, ringz|].
  - replace ((rM + rm * cosa M j) * cosa N i - (rM + rm * cos (part M j)) * cos (part N i)) with ((rM * cosa N i - rM * cos (part N i)) + (rm * (cosa M j * cosa N i) - rm * (cos (part M j) * cos (part N i)))) by ring.
    eapply Rle_trans; [apply Rabs_triang|]. apply Rplus_le_compat; apply scal_near; [apply cosa_near, Hi|]. apply prod_near; [apply cosa_near, Hj|apply cosa_near, Hi|apply abs_cos|apply abs_cos].
  - replace ((rM + rm * cosa M j) * sina N i - (rM + rm * cos (part M j)) * sin (part N i)) with ((rM * sina N i - rM * sin (part N i)) + (rm * (cosa M j * sina N i) - rm * (cos (part M j) * sin (part N i)))) by ring.
    eapply Rle_trans; [apply Rabs_triang|]. apply Rplus_le_compat; apply scal_near; [apply sina_near, Hi|]. apply prod_near; [apply cosa_near, Hj|apply sina_near, Hi|apply abs_sin|apply abs_cos].
  - apply scal_near, sina_near, Hj.
  - nra.
Qed.

(** ** Volumes *)
Lemma gon7 N : (1 <= N)%Z -> Rabs (gon N) <= 7. Proof. intros H. pose proof (gon_le N H). pose proof PI_small. lra. Qed.
Lemma wedges8 N : (1 <= N)%Z -> Rabs (wedges N) <= 8.
Proof.
  intros H. pose proof (gon7 N H). pose proof (wedges_near N H). pose proof e_small. replace (wedges N) with (gon N + (wedges N - gon N)) by ring. eapply Rle_trans; [apply Rabs_triang|]. lra.
Qed.
Lemma cyl_volume_near r h N : (2 <= N)%Z -> Rabs (wedges N * (r * r) * (h / 2) - prism_volume N r h) <= tiny * (r * r * Rabs h).
Proof.
  intros H. unfold prism_volume. replace (wedges N * (r * r) * (h / 2) - gon N / 2 * (r * r) * h) with ((wedges N - gon N) / 2 * ((r * r) * h)) by field.
  rewrite Rabs_mult. rewrite (Rabs_mult (r * r)), (Rabs_pos_eq (r * r)) by apply Rle_0_sqr. pose proof (wedges_near N ltac:(lia)) as W. pose proof e_small. pose proof tiny_e.
  apply Rmult_le_compat_r; [apply Rmult_le_pos; [apply Rle_0_sqr|apply Rabs_pos]|]. unfold Rdiv. rewrite Rabs_mult, (Rabs_pos_eq (/ 2)) by lra. lra.
Qed.
Lemma prod_err a b a' b' x y A B : Rabs (a - a') <= x -> Rabs (b - b') <= y -> Rabs b <= B -> Rabs a' <= A -> Rabs (a * b - a' * b') <= x * B + A * y.
Proof.
  intros H1 H2 H3 H4. replace (a * b - a' * b') with ((a - a') * b + a' * (b - b')) by ring. eapply Rle_trans; [apply Rabs_triang|]. rewrite !Rabs_mult.
  apply Rplus_le_compat; apply Rmult_le_compat; try apply Rabs_pos; assumption.
Qed.
Lemma uv_volume_near r N M : (1 <= N)%Z -> (2 <= M)%Z -> Rabs (wedges N * (r * r * r) * meridian M / 6 - globe_volume N M r) <= tiny * (Rabs r * Rabs r * Rabs r).
Proof.
  intros H HM. unfold globe_volume. replace (wedges N * (r * r * r) * meridian M / 6 - gon N * (1 + cos (PI / IZR M)) / 3 * (r * r * r)) with ((wedges N * meridian M - gon N * (2 + 2 * cos (PI / IZR M))) / 6 * (r * r * r)) by field.
  rewrite Rabs_mult, !(Rabs_mult _ r). pose proof (wedges_near N H) as W. pose proof (meridian_near M HM) as K. pose proof (gon7 N H). pose proof e_small. pose proof tiny_e.
  apply Rmult_le_compat_r; [repeat apply Rmult_le_pos; apply Rabs_pos|]. unfold Rdiv. rewrite Rabs_mult, (Rabs_pos_eq (/ 6)) by lra.
  assert (Rabs (meridian M) <= 5) as M5. { pose proof (COS_bound (PI / IZR M)). apply abs_between in K. apply Rabs_le. lra. }
  pose proof (prod_err _ _ _ _ _ _ _ _ W K M5 H0). lra.
Qed.
Lemma torus_volume_near rM rm N M : (1 <= N)%Z -> (1 <= M)%Z ->
  Rabs (wedges N * (rm * rm * (3 * rM * wedges M + rm * cosw M)) / 6 - ring_volume N M rM rm) <= tiny * ((Rabs rM + Rabs rm) * (rm * rm)).
Proof.
  intros H HM. unfold ring_volume.
  replace (wedges N * (rm * rm * (3 * rM * wedges M + rm * cosw M)) / 6 - gon N * gon M / 2 * rM * (rm * rm)) with (((wedges N * wedges M - gon N * gon M) / 2 * rM + wedges N * cosw M / 6 * rm) * (rm * rm)) by field.
  rewrite Rabs_mult, (Rabs_pos_eq (rm * rm)) by apply Rle_0_sqr. rewrite <- (Rmult_assoc tiny). apply Rmult_le_compat_r; [apply Rle_0_sqr|].
  pose proof (wedges_near N H) as W. pose proof (wedges_near M HM) as W2. pose proof (gon7 N H) as G. pose proof (wedges8 M HM) as G2. pose proof (wedges8 N H) as G3. pose proof (cosw_small M HM) as C. pose proof e_small. pose proof tiny_e.
  pose proof (prod_err _ _ _ _ _ _ _ _ W W2 G2 G) as P.
  assert (Rabs (wedges N * cosw M) <= 16 * e_) as Q. { rewrite Rabs_mult. pose proof (Rabs_pos (wedges N)). pose proof (Rabs_pos (cosw M)). nra. }
  eapply Rle_trans; [apply Rabs_triang|]. rewrite !Rabs_mult. unfold Rdiv. rewrite !Rabs_mult, (Rabs_pos_eq (/ 2)), (Rabs_pos_eq (/ 6)) by lra. rewrite Rabs_mult in Q.
  pose proof (Rabs_pos rM). pose proof (Rabs_pos rm). set (A := Rabs (wedges N * wedges M - gon N * gon M)) in *. set (B := Rabs (wedges N) * Rabs (cosw M)) in *. rewrite Rmult_plus_distr_l.
  apply Rplus_le_compat; apply Rmult_le_compat_r; lra.
Qed.

(** ** The three solids *)
Lemma cylinder_round (h r : R) n m : reach m -> (0 <= n)%Z -> let N := (2 + 4 * n)%Z in
  exists m' a v, create_cylinder h r n m = Ok m' /\ reach m' /\ shows m' a /\
    (forall k, (0 <= k < N)%Z -> dist3 (pt a (2 * k) O3) (cylinder_point r (h / 2) (part N k)) <= tiny * Rabs r /\
                                 dist3 (pt a (2 * k + 1) O3) (cylinder_point r (- (h / 2)) (part N k)) <= tiny * Rabs r) /\
    pt a (2 * N) O3 = mkP 0 0 (h / 2) /\ pt a (2 * N + 1) O3 = mkP 0 0 (- (h / 2)) /\
    volume m' = Ok v /\ Rabs (v - prism_volume N r h) <= tiny * (r * r * Rabs h).
Proof.
  intros Rm Hn N. destruct (cyl_is h r n m divides_R Rm Hn) as [m' [E I]]. rewrite dv_R in I by lia. fold N in I. assert (2 <= N)%Z as HN by (unfold N; lia).
  eexists m', _, (wedges N * (r * r) * (h / 2)). split; [exact E|]. split; [apply I|]. split; [apply I|].
  split; [|split; [apply cyl_ctop; lia|split; [apply cyl_cbot; lia|split]]].
  - intros k Hk. split; [change (pt _ (2 * k) O3) with (at_ (cyl_vs r (h / 2) N) (2 * k)); rewrite cyl_top by exact Hk|change (pt _ (2 * k + 1) O3) with (at_ (cyl_vs r (h / 2) N) (2 * k + 1)); rewrite cyl_bot by exact Hk]; apply cyl_near, Hk.
  - rewrite (is_volume _ _ _ _ I). f_equal. apply cyl_volume. exact HN.
  - apply cyl_volume_near. exact HN.
Qed.
Lemma sphere_round (r : R) n m : reach m -> (0 <= n)%Z -> let N := (2 + 4 * n)%Z in let M := (2 + 2 * n)%Z in
  exists m' a v, create_sphere_uv r n m = Ok m' /\ reach m' /\ shows m' a /\
    (forall i j, (0 <= i < N)%Z -> (1 <= j < M)%Z -> dist3 (pt a (i * (M - 1) + (j - 1)) O3) (sphere_point r (part N i) (half_part M j)) <= tiny * Rabs r) /\
    pt a (N * (M - 1)) O3 = mkP 0 0 r /\ pt a (N * (M - 1) + 1) O3 = mkP 0 0 (- r) /\
    volume m' = Ok v /\ Rabs (v - globe_volume N M r) <= tiny * (Rabs r * Rabs r * Rabs r).
Proof.
  intros Rm Hn N M. destruct (uv_is r n m divides_R Rm) as [m' [E I]]. fold N in I. fold M in I. replace (1 + 2 * n)%Z with (M - 1)%Z in I by (unfold M; lia). assert (2 <= N)%Z as HN by (unfold N; lia). assert (2 <= M)%Z as HM by (unfold M; lia).
  eexists m', _, (wedges N * (r * r * r) * meridian M / 6). split; [exact E|]. split; [apply I|]. split; [apply I|].
  split; [|split; [|split; [|split]]].
  - intros i j Hi Hj. change (pt _ (i * (M - 1) + (j - 1)) O3) with (at_ (uv_vs r N M) (i * (M - 1) + (j - 1))). rewrite uv_at by assumption. apply uv_near; lia.
  - rewrite (Z.mul_comm N). apply uv_north; lia.
  - rewrite (Z.mul_comm N). apply uv_south; lia.
  - rewrite (is_volume _ _ _ _ I). f_equal. apply uv_volume; lia.
  - apply uv_volume_near; lia.
Qed.
Lemma torus_round (rM rm : R) n m : reach m -> (0 <= n)%Z -> let N := (2 + 4 * n)%Z in let M := (6 + 2 * n)%Z in
  exists m' a v, create_torus rM rm n m = Ok m' /\ reach m' /\ shows m' a /\
    (forall i j, (0 <= i < N)%Z -> (0 <= j < M)%Z -> dist3 (pt a (i * M + j) O3) (torus_point rM rm (part N i) (part M j)) <= tiny * (Rabs rM + Rabs rm)) /\
    volume m' = Ok v /\ Rabs (v - ring_volume N M rM rm) <= tiny * ((Rabs rM + Rabs rm) * (rm * rm)).
Proof.
  intros Rm Hn N M. destruct (torus_is rM rm n m divides_R Rm) as [m' [E I]]. fold N in I. fold M in I. assert (2 <= N)%Z as HN by (unfold N; lia). assert (2 <= M)%Z as HM by (unfold M; lia).
  eexists m', _, (wedges N * (rm * rm * (3 * rM * wedges M + rm * cosw M)) / 6). split; [exact E|]. split; [apply I|]. split; [apply I|]. split; [|split].
  - intros i j Hi Hj. change (pt _ (i * M + j) O3) with (at_ (torus_vs rM rm N M) (i * M + j)). rewrite torus_at by assumption. apply torus_near; lia.
  - rewrite (is_volume _ _ _ _ I). f_equal. change (msum (torus_vs rM rm N M) (torus_ts N M) = wedges N * (rm * rm * (3 * rM * wedges M + rm * cosw M)) / 6).
    rewrite torus_volume0, torus_profile by lia. reflexivity.
  - apply torus_volume_near; lia.
Qed.

(** ** Towards the smooth solids *)
Lemma sin_lower x : 0 <= x <= PI -> x - x * x * x / 6 <= sin x.
Proof.
  intros [A B]. destruct (pre_sin_bound x 0) as [L _]; [exact A|pose proof PI_small; lra|].
  unfold sin_approx, sin_term in L. cbn in L. lra.
Qed.
Lemma gon_near N : (2 <= N)%Z -> 0 <= gon N <= 2 * PI /\ 2 * PI - gon N <= 44 / (IZR N * IZR N).
Proof.
  intros H. assert (2 <= IZR N) as HN by (apply IZR_le; lia). pose proof PI_small. unfold gon. set (x := 2 * PI / IZR N).
  assert (0 < / IZR N) by (apply Rinv_0_lt_compat; lra). assert (/ IZR N <= / 2) by (apply Rinv_le_contravar; lra).
  assert (0 <= x <= PI) as B. { unfold x, Rdiv. split; [apply Rmult_le_pos; lra|]. nra. }
  pose proof (sin_lower x B) as L. pose proof (sin_ge_0 x (proj1 B) (proj2 B)).
  assert (IZR N * x = 2 * PI) as E by (unfold x; field; lra).
  pose proof (sin_abs_le x) as U. rewrite Rabs_pos_eq in U by assumption. rewrite Rabs_pos_eq in U by apply B.
  split; [split; [apply Rmult_le_pos; lra|rewrite <- E; apply Rmult_le_compat_l; lra]|].
  apply Rle_trans with (IZR N * (x * x * x / 6)). { assert (IZR N * (x - x * x * x / 6) <= IZR N * sin x) by (apply Rmult_le_compat_l; lra). lra. }
  replace (IZR N * (x * x * x / 6)) with (8 * (PI * PI * PI) / 6 / (IZR N * IZR N)) by (unfold x; field; lra).
  assert (0 < / (IZR N * IZR N)) by (apply Rinv_0_lt_compat; nra). unfold Rdiv at 1 3. apply Rmult_le_compat_r; [lra|].
  assert (PI * PI <= 1024 / 100) by nra. assert (PI * PI * PI <= 1024 / 100 * (32 / 10)) by (apply Rmult_le_compat; nra). lra.
Qed.
Lemma prism_smooth N r h : (2 <= N)%Z -> Rabs (prism_volume N r h - PI * (r * r) * h) <= 22 / (IZR N * IZR N) * (r * r * Rabs h).
Proof.
  intros H. destruct (gon_near N H) as [[A B] C]. unfold prism_volume. replace (gon N / 2 * (r * r) * h - PI * (r * r) * h) with (- ((2 * PI - gon N) / 2) * ((r * r) * h)) by field.
  rewrite Rabs_mult, (Rabs_mult (r * r)), (Rabs_pos_eq (r * r)) by apply Rle_0_sqr. apply Rmult_le_compat_r; [apply Rmult_le_pos; [apply Rle_0_sqr|apply Rabs_pos]|].
  rewrite Rabs_Ropp, Rabs_pos_eq by lra. unfold Rdiv in *. lra.
Qed.
Lemma inv_sq N M : (2 <= N)%Z -> (N <= 2 * M)%Z -> / (IZR M * IZR M) <= 4 / (IZR N * IZR N).
Proof.
  intros H HM. assert (2 <= IZR N) as HN by (apply IZR_le; lia). assert (IZR N <= 2 * IZR M) by (rewrite <- mult_IZR; apply IZR_le; lia).
  replace (4 / (IZR N * IZR N)) with (/ (IZR N / 2 * (IZR N / 2))) by (field; lra). apply Rinv_le_contravar; [nra|]. apply Rmult_le_compat; lra.
Qed.
Lemma globe_smooth N M r : (2 <= N)%Z -> (N <= 2 * M)%Z -> Rabs (globe_volume N M r - 4 / 3 * PI * (r * r * r)) <= 75 / (IZR N * IZR N) * (Rabs r * Rabs r * Rabs r).
Proof.
  intros H HM. destruct (gon_near N H) as [[A B] C]. unfold globe_volume. set (c := cos (PI / IZR M)).
  replace (gon N * (1 + c) / 3 * (r * r * r) - 4 / 3 * PI * (r * r * r)) with (- ((2 * PI - gon N) * 2 / 3 + gon N * (1 - c) / 3) * (r * r * r)) by field.
  rewrite Rabs_mult, !(Rabs_mult _ r), Rabs_Ropp. apply Rmult_le_compat_r; [repeat apply Rmult_le_pos; apply Rabs_pos|].
  pose proof PI_small. assert (c <= 1) by (unfold c; apply COS_bound).
  assert (1 - c <= 21 * / (IZR N * IZR N)) as K.
  { unfold c. assert (IZR M <> 0) by (apply not_0_IZR; lia). replace (PI / IZR M) with (2 * (PI / IZR M / 2)) by (field; assumption).
    rewrite cos_2a_sin. set (y := PI / IZR M / 2).
    assert (0 < IZR M) by (apply IZR_lt; lia). pose proof (sin_abs_le y) as S. assert (0 < / IZR M) by (apply Rinv_0_lt_compat; lra).
    assert (0 <= y) by (unfold y, Rdiv; apply Rmult_le_pos; [apply Rmult_le_pos; lra|lra]). rewrite (Rabs_pos_eq y) in S by assumption. apply abs_between in S.
    assert (sin y * sin y <= y * y) by nra. pose proof (inv_sq N M H HM) as Q.
    assert (y * y = PI * PI / 4 * / (IZR M * IZR M)) as Y by (unfold y; field; lra).
    assert (PI * PI <= 1024 / 100) by nra. assert (0 < / (IZR M * IZR M)) by (apply Rinv_0_lt_compat; nra).
    assert (y * y <= 256 / 100 * / (IZR M * IZR M)) by (rewrite Y; apply Rmult_le_compat_r; lra). unfold Rdiv in Q. nra. }
  assert (0 < / (IZR N * IZR N)). { assert (2 <= IZR N) by (apply IZR_le; lia). apply Rinv_0_lt_compat; nra. }
  assert (0 <= gon N * (1 - c)) by (apply Rmult_le_pos; lra). rewrite Rabs_pos_eq by (unfold Rdiv in *; lra).
  assert (gon N * (1 - c) <= 64 / 10 * (21 * / (IZR N * IZR N))) by (apply Rmult_le_compat; lra). unfold Rdiv in *. lra.
Qed.
Lemma ring_smooth N M rM rm : (2 <= N)%Z -> (N <= 2 * M)%Z -> (2 <= M)%Z -> Rabs (ring_volume N M rM rm - 2 * (PI * PI) * rM * (rm * rm)) <= 710 / (IZR N * IZR N) * (Rabs rM * (rm * rm)).
Proof.
  intros H HM H2. destruct (gon_near N H) as [[A B] C]. destruct (gon_near M H2) as [[A2 B2] C2]. unfold ring_volume.
  replace (gon N * gon M / 2 * rM * (rm * rm) - 2 * (PI * PI) * rM * (rm * rm)) with (- ((2 * PI * (2 * PI - gon N) + gon N * (2 * PI - gon M)) / 2) * (rM * (rm * rm))) by field.
  rewrite Rabs_mult, (Rabs_mult rM), (Rabs_pos_eq (rm * rm)), Rabs_Ropp by apply Rle_0_sqr. apply Rmult_le_compat_r; [apply Rmult_le_pos; [apply Rabs_pos|apply Rle_0_sqr]|].
  pose proof PI_small. pose proof (inv_sq N M H HM) as Q. assert (0 < / (IZR N * IZR N)). { assert (2 <= IZR N) by (apply IZR_le; lia). apply Rinv_0_lt_compat; nra. }
  unfold Rdiv in *.
  assert (0 <= 2 * PI * (2 * PI - gon N) <= 64 / 10 * (44 * / (IZR N * IZR N))) by (split; [apply Rmult_le_pos; lra|apply Rmult_le_compat; lra]).
  assert (0 <= gon N * (2 * PI - gon M) <= 64 / 10 * (44 * (4 * / (IZR N * IZR N)))) by (split; [apply Rmult_le_pos; lra|apply Rmult_le_compat; lra]).
  rewrite Rabs_pos_eq by lra. lra.
Qed.

Lemma near_smooth v w s a t k : Rabs (v - w) <= t * k -> Rabs (w - s) <= a * k -> Rabs (v - s) <= (a + t) * k.
Proof. intros A B. replace (v - s) with ((v - w) + (w - s)) by ring. eapply Rle_trans; [apply Rabs_triang|]. lra. Qed.
Lemma round_smooth (h r rM rm : R) n m : reach m -> (0 <= n)%Z -> let N := IZR (2 + 4 * n) in
  (exists m' v, create_cylinder h r n m = Ok m' /\ volume m' = Ok v /\ Rabs (v - PI * (r * r) * h) <= (22 / (N * N) + tiny) * (r * r * Rabs h)) /\
  (exists m' v, create_sphere_uv r n m = Ok m' /\ volume m' = Ok v /\ Rabs (v - 4 / 3 * PI * (r * r * r)) <= (75 / (N * N) + tiny) * (Rabs r * Rabs r * Rabs r)) /\
  (exists m' v, create_torus rM rm n m = Ok m' /\ volume m' = Ok v /\ Rabs (v - 2 * (PI * PI) * rM * (rm * rm)) <= (710 / (N * N) + tiny) * ((Rabs rM + Rabs rm) * (rm * rm))).
Proof.
  intros Rm Hn N. split; [|split].
  - destruct (cylinder_round h r n m Rm Hn) as [m' [a [v [E [_ [_ [_ [_ [_ [V W]]]]]]]]]]. exists m', v. split; [exact E|]. split; [exact V|]. eapply near_smooth; [exact W|]. apply prism_smooth. lia.
  - destruct (sphere_round r n m Rm Hn) as [m' [a [v [E [_ [_ [_ [_ [_ [V W]]]]]]]]]]. exists m', v. split; [exact E|]. split; [exact V|]. eapply near_smooth; [exact W|]. apply globe_smooth; lia.
  - destruct (torus_round rM rm n m Rm Hn) as [m' [a [v [E [_ [_ [_ [V W]]]]]]]]. exists m', v. split; [exact E|]. split; [exact V|]. eapply near_smooth; [exact W|].
    eapply Rle_trans; [apply (ring_smooth (2 + 4 * n) (6 + 2 * n)); lia|]. apply Rmult_le_compat_l.
    + assert (2 <= N) by (apply IZR_le; lia). unfold Rdiv. apply Rmult_le_pos; [lra|]. left. apply Rinv_0_lt_compat. fold N. nra.
    + apply Rmult_le_compat_r; [apply Rle_0_sqr|]. pose proof (Rabs_pos rm). lra.
Qed.
