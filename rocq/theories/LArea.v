(** Surface areas of the round solids. *)
From Coq Require Import ZArith List Bool Lia Reals Lra Psatz Nsatz.
From Verif Require Import Base Num MGeometry MKernel MMesh MMeshRun MMeasure MUtil MMeshFactory SMesh SReach SGeom SMeasure SMeshFac SRound SArea LBase LMesh LReach LGeom LMeasure LMeasure2 LMeshFac LMeshFac2 LMeshFac3 LMeshFac4 LMeshFac5 LPi LRound LRound2 LRound3 LRound4 LRound5.
Import ListNotations.
Open Scope R_scope.

(** ** Areas of lists of triangles *)
Definition asum (vs : list pt3) (ts : list triple) : R := sumR (map area_tri (tri_list vs ts)).
Lemma asum_app vs u v : asum vs (u ++ v) = asum vs u + asum vs v.
Proof. unfold asum, tri_list. rewrite !map_app. apply sumR_app. Qed.
Lemma asum_flat vs h l : asum vs (flat_map h l) = rsum (fun i => asum vs (h i)) l.
Proof. induction l as [|i l IH]; [reflexivity|]. cbn [flat_map]. rewrite asum_app, IH. reflexivity. Qed.
Lemma asum_1 vs x y z : asum vs [(x, y, z)] = area3 (at_ vs x) (at_ vs y) (at_ vs z).
Proof. unfold asum, at_. cbn. ring. Qed.
Lemma asum_quad vs x y z w : asum vs (quad_ts x y z w) = area3 (at_ vs x) (at_ vs y) (at_ vs z) + area3 (at_ vs z) (at_ vs w) (at_ vs x).
Proof. unfold asum, at_. cbn. ring. Qed.

(** ** One cell between two profile points and two angles *)
Definition dcos (N i k : Z) : R := cosa N i * cosa N k + sina N i * sina N k.
Definition cellw (N i k : Z) (dr dz : R) : R := sqrt (wedge N i k * wedge N i k * (dr * dr) + 2 * (1 - dcos N i k) * (dz * dz)).
Lemma cosa_sina N i : cosa N i * cosa N i + sina N i * sina N i = 1.
Proof. unfold cosa, sina. pose proof (sin2_cos2 (angle i N)) as H. unfold Rsqr in H. lra. Qed.
Lemma dcos_wedge N i k : dcos N i k * dcos N i k + wedge N i k * wedge N i k = 1.
Proof. unfold dcos, wedge. pose proof (cosa_sina N i). pose proof (cosa_sina N k). generalize dependent (cosa N i). generalize (sina N i). generalize dependent (cosa N k). generalize (sina N k). intros. nsatz. Qed.
Lemma dcos_le N i k : -1 <= dcos N i k <= 1.
Proof. pose proof (dcos_wedge N i k). split; nra. Qed.
Lemma cell_area N i k r z r' z' :
  area3 (mkP (r * cosa N i) (r * sina N i) z) (mkP (r' * cosa N i) (r' * sina N i) z') (mkP (r' * cosa N k) (r' * sina N k) z') = Rabs r' / 2 * cellw N i k (r' - r) (z' - z).
Proof.
  unfold area3. replace (Rabs r' / 2 * cellw N i k (r' - r) (z' - z)) with (Rabs r' * cellw N i k (r' - r) (z' - z) / 2) by field. f_equal.
  unfold cellw. rewrite <- sqrt_Rsqr_abs. unfold Rsqr.
  rewrite <- sqrt_mult_alt by apply Rle_0_sqr. unfold len3. f_equal.
  unfold dot3, cross3, sub3, wedge, dcos. cbn [px py pz].
  pose proof (cosa_sina N i) as A. pose proof (cosa_sina N k) as B. revert A B. generalize (cosa N i) (sina N i) (cosa N k) (sina N k). intros c s c' s' A B.
  nsatz.
Qed.
Lemma area3_swap p q r : area3 q p r = area3 p q r.
Proof.
  unfold area3. f_equal. unfold len3. f_equal. unfold dot3, cross3, sub3. cbn [px py pz]. ring.
Qed.

(** ** Chords *)
Definition halfs (N i k : Z) : R := sqrt ((1 - dcos N i k) / 2).
Lemma halfs_sin N i k : halfs N i k = Rabs (sin ((angle k N - angle i N) / 2)).
Proof.
  unfold halfs. rewrite <- sqrt_Rsqr_abs. f_equal. unfold Rsqr. set (h := (angle k N - angle i N) / 2).
  replace (dcos N i k) with (cos (2 * h)); [rewrite cos_2a_sin; field|]. unfold dcos, cosa, sina, h. replace (2 * ((angle k N - angle i N) / 2)) with (angle k N - angle i N) by field. rewrite cos_minus. ring.
Qed.
Lemma halfs_pos N i k : 0 <= halfs N i k. Proof. apply sqrt_pos. Qed.
Lemma cellw_bounds N i k dr dz : Rabs (wedge N i k) * sqrt (dr * dr + dz * dz) <= cellw N i k dr dz <= 2 * halfs N i k * sqrt (dr * dr + dz * dz).
Proof.
  pose proof (dcos_wedge N i k) as D. pose proof (dcos_le N i k) as B. set (w := wedge N i k) in *. set (c := dcos N i k) in *.
  assert (0 <= dr * dr) by apply Rle_0_sqr. assert (0 <= dz * dz) by apply Rle_0_sqr. assert (0 <= w * w) by apply Rle_0_sqr.
  assert (w * w <= 2 * (1 - c)) as W by nra. unfold cellw. fold w c. split.
  - rewrite <- sqrt_Rsqr_abs. unfold Rsqr. rewrite <- sqrt_mult_alt by assumption. apply sqrt_le_1_alt. nra.
  - unfold halfs. fold c. assert (2 * sqrt ((1 - c) / 2) = sqrt (2 * (1 - c))) as ->.
    { replace (2 * (1 - c)) with (2 * 2 * ((1 - c) / 2)) by field. rewrite sqrt_mult_alt, sqrt_square by lra. reflexivity. }
    rewrite <- sqrt_mult_alt by lra. apply sqrt_le_1_alt. nra.
Qed.
Lemma rsum_le f g l : (forall i, In i l -> f i <= g i) -> rsum f l <= rsum g l.
Proof.
  induction l as [|i l IH]; intros H; [unfold rsum; cbn; lra|]. rewrite !rsum_cons. apply Rplus_le_compat; [apply H; left; reflexivity|]. apply IH. intros j Hj. apply H. right. exact Hj.
Qed.
Definition hsum (N : Z) : R := rsum (fun i => halfs N i (Z.rem (i + 1) N)) (zrange 0 N).
Definition wabs (N : Z) : R := rsum (fun i => Rabs (wedge N i (Z.rem (i + 1) N))) (zrange 0 N).
Lemma hsum_eq N : (1 <= N)%Z -> hsum N = IZR (N - 1) * Rabs (sin (pi_lit / IZR N)) + Rabs (sin (pi_lit / IZR N + e_)).
Proof.
  intros H. assert (IZR N <> 0) by (apply not_0_IZR; lia). unfold hsum. rewrite (rsum_cycle_split (halfs N)) by lia. f_equal.
  - rewrite (rsum_ext _ (fun _ => Rabs (sin (pi_lit / IZR N)))); [rewrite rsum_const by lia; f_equal; f_equal; lia|].
    intros i _. rewrite halfs_sin, !angle_R by lia. do 2 f_equal. rewrite plus_IZR. field. assumption.
  - rewrite halfs_sin, !angle_R by lia. rewrite minus_IZR, pi_lit_R. rewrite <- (Rabs_Ropp (sin ((PI - e_) / IZR N + e_))). f_equal.
    replace ((IZR 0 * (2 * (PI - e_) / IZR N) - (IZR N - 1) * (2 * (PI - e_) / IZR N)) / 2) with ((PI - e_) / IZR N + e_ - PI) by (field; assumption).
    rewrite sin_minus, cos_PI, sin_PI. ring.
Qed.
Lemma wabs_eq N : (1 <= N)%Z -> wabs N = IZR (N - 1) * Rabs (sin (2 * pi_lit / IZR N)) + Rabs (sin (2 * pi_lit / IZR N + 2 * e_)).
Proof.
  intros H. unfold wabs. rewrite (rsum_cycle_split (fun i k => Rabs (wedge N i k))) by lia. rewrite wedge_close by lia. f_equal.
  rewrite (rsum_ext _ (fun _ => Rabs (sin (2 * pi_lit / IZR N)))) by (intros i _; rewrite wedge_step by lia; reflexivity). rewrite rsum_const by lia. f_equal. f_equal. lia.
Qed.
(** A number a bit below and a closing one a bit above an equal share. *)
Lemma shares N a b e : (1 <= N)%Z -> 0 <= e -> 0 <= sin b -> 0 <= a -> b - a = e * / IZR N ->
  let S := IZR (N - 1) * Rabs (sin a) + Rabs (sin (a + e)) in S <= IZR N * b /\ Rabs (S - IZR N * sin b) <= 2 * e.
Proof.
  intros H He Hb Ha AB S. assert (1 <= IZR N) as HN by (apply IZR_le; lia). assert (0 < / IZR N <= 1) as HI. { split; [apply Rinv_0_lt_compat; lra|]. rewrite <- Rinv_1. apply Rinv_le_contravar; lra. }
  unfold S. rewrite minus_IZR. assert (IZR N * / IZR N = 1) as NI by (apply Rinv_r; lra). split.
  - pose proof (sin_abs_le a) as A1. pose proof (sin_abs_le (a + e)) as A2. rewrite (Rabs_pos_eq a) in A1 by exact Ha. rewrite (Rabs_pos_eq (a + e)) in A2 by lra.
    assert ((IZR N - 1) * Rabs (sin a) <= (IZR N - 1) * a) by (apply Rmult_le_compat_l; lra). replace b with (a + e * / IZR N) by lra.
    replace (IZR N * (a + e * / IZR N)) with (IZR N * a + e * (IZR N * / IZR N)) by ring. rewrite NI. lra.
  - pose proof (sin_lip a b) as S1. pose proof (sin_lip (a + e) b) as S2.
    replace (a - b) with (- (e * / IZR N)) in S1 by lra. rewrite Rabs_Ropp, (Rabs_pos_eq (e * / IZR N)) in S1 by nra.
    replace (a + e - b) with (e * (1 - / IZR N)) in S2 by lra. rewrite (Rabs_pos_eq (e * (1 - / IZR N))) in S2 by nra.
    pose proof (Rabs_triang_inv2 (sin a) (sin b)) as T1. pose proof (Rabs_triang_inv2 (sin (a + e)) (sin b)) as T2. rewrite (Rabs_pos_eq (sin b)) in T1, T2 by exact Hb.
    replace ((IZR N - 1) * Rabs (sin a) + Rabs (sin (a + e)) - IZR N * sin b) with ((IZR N - 1) * (Rabs (sin a) - sin b) + (Rabs (sin (a + e)) - sin b)) by ring.
    eapply Rle_trans; [apply Rabs_triang|]. rewrite Rabs_mult, (Rabs_pos_eq (IZR N - 1)) by lra.
    assert ((IZR N - 1) * Rabs (Rabs (sin a) - sin b) <= (IZR N - 1) * (e * / IZR N)) as T by (apply Rmult_le_compat_l; lra).
    replace ((IZR N - 1) * (e * / IZR N)) with (e * (1 - / IZR N)) in T by (field; lra). nra.
Qed.
Lemma part_sin N k : (1 <= N)%Z -> 0 <= k <= 1 -> 0 <= sin (k * PI / IZR N).
Proof.
  intros H K. assert (1 <= IZR N) as HN by (apply IZR_le; lia). pose proof PI_small. assert (0 < / IZR N <= 1) as HI. { split; [apply Rinv_0_lt_compat; lra|]. rewrite <- Rinv_1. apply Rinv_le_contravar; lra. }
  assert (0 <= k * PI <= PI) by nra. apply sin_ge_0; unfold Rdiv; nra.
Qed.
Lemma pi_lit_pos : 0 < pi_lit. Proof. rewrite pi_lit_R. pose proof PI_small. pose proof e_small. lra. Qed.
Lemma hsum_facts N : (1 <= N)%Z -> hsum N <= PI /\ Rabs (2 * hsum N - gon (2 * N)) <= 4 * e_.
Proof.
  intros H. assert (1 <= IZR N) as HN by (apply IZR_le; lia). pose proof e_small. pose proof pi_lit_pos. assert (0 < / IZR N) by (apply Rinv_0_lt_compat; lra).
  pose proof (part_sin N 1 H ltac:(lra)) as P. rewrite Rmult_1_l in P.
  destruct (shares N (pi_lit / IZR N) (PI / IZR N) e_ H) as [A B]; [lra|exact P|unfold Rdiv; nra|rewrite pi_lit_R; field; lra|].
  rewrite hsum_eq by exact H. cbv zeta in A, B. split; [replace PI with (IZR N * (PI / IZR N)) by (field; lra); exact A|].
  unfold gon. rewrite mult_IZR. replace (2 * PI / (2 * IZR N)) with (PI / IZR N) by (field; lra).
  match goal with |- Rabs (2 * ?x - _) <= _ => replace (2 * x - 2 * IZR N * sin (PI / IZR N)) with (2 * (x - IZR N * sin (PI / IZR N))) by ring end.
  rewrite Rabs_mult, (Rabs_pos_eq 2) by lra. lra.
Qed.
Lemma wabs_facts N : (2 <= N)%Z -> wabs N <= 2 * PI /\ Rabs (wabs N - gon N) <= 4 * e_.
Proof.
  intros H. assert (2 <= IZR N) as HN by (apply IZR_le; lia). pose proof e_small. pose proof pi_lit_pos. assert (0 < / IZR N) by (apply Rinv_0_lt_compat; lra).
  assert (0 <= sin (2 * PI / IZR N)) as P. { pose proof PI_small. assert (/ IZR N <= / 2) by (apply Rinv_le_contravar; lra). apply sin_ge_0; unfold Rdiv; nra. }
  destruct (shares N (2 * pi_lit / IZR N) (2 * PI / IZR N) (2 * e_)) as [A B]; [lia|lra|exact P|unfold Rdiv; nra|rewrite pi_lit_R; field; lra|].
  rewrite wabs_eq by lia. cbv zeta in A, B. split; [replace (2 * PI) with (IZR N * (2 * PI / IZR N)) by (field; lra); exact A|]. unfold gon. eapply Rle_trans; [exact B|]. lra.
Qed.
(** Strips around the axis over a profile of given weighted length. *)
Lemma turn_bounds N (F : Z -> Z -> R) P : (2 <= N)%Z -> 0 <= P ->
  (forall i k, (0 <= i < N)%Z -> (0 <= k < N)%Z -> Rabs (wedge N i k) / 2 * P <= F i k <= halfs N i k * P) ->
  wabs N / 2 * P <= rsum (fun i => F i (Z.rem (i + 1) N)) (zrange 0 N) <= PI * P.
Proof.
  intros H HP B. split.
  - replace (wabs N / 2 * P) with (P / 2 * wabs N) by field. unfold wabs. rewrite <- rsum_scal. apply rsum_le. intros i Hi. apply in_zrange in Hi. pose proof (rem_in i N Hi) as Hk. destruct (B i _ Hi Hk) as [L _]. lra.
  - apply Rle_trans with (hsum N * P); [|apply Rmult_le_compat_r; [exact HP|apply hsum_facts; lia]]. rewrite (Rmult_comm (hsum N)). unfold hsum. rewrite <- rsum_scal. apply rsum_le. intros i Hi. apply in_zrange in Hi. pose proof (rem_in i N Hi) as Hk. destruct (B i _ Hi Hk) as [_ L]. lra.
Qed.

(** ** Cylinder *)
Lemma area_cc p q : area3 p q p = 0 /\ area3 p p q = 0.
Proof. split; apply area3_zero; unfold collinear, cross3, sub3; cbn [px py pz]; unfold O3; f_equal; ring. Qed.
Lemma cellw_dz N i k dz : cellw N i k 0 dz = 2 * halfs N i k * Rabs dz.
Proof.
  unfold cellw, halfs. pose proof (dcos_le N i k). replace (wedge N i k * wedge N i k * (0 * 0) + 2 * (1 - dcos N i k) * (dz * dz)) with (2 * 2 * ((1 - dcos N i k) / 2 * (dz * dz))) by field.
  rewrite sqrt_mult_alt, sqrt_square, sqrt_mult_alt by lra. fold (Rsqr dz). rewrite sqrt_Rsqr_abs. ring.
Qed.
Lemma cellw_dr N i k dr : cellw N i k dr 0 = Rabs (wedge N i k) * Rabs dr.
Proof.
  unfold cellw. replace (wedge N i k * wedge N i k * (dr * dr) + 2 * (1 - dcos N i k) * (0 * 0)) with (Rsqr (wedge N i k * dr)) by (unfold Rsqr; ring). rewrite sqrt_Rsqr_abs. apply Rabs_mult.
Qed.
Lemma halfs_sym N i k : halfs N i k = halfs N k i.
Proof. unfold halfs, dcos. do 2 f_equal. ring. Qed.
Lemma wedge_sym N i k : Rabs (wedge N i k) = Rabs (wedge N k i).
Proof. rewrite <- Rabs_Ropp. f_equal. unfold wedge. ring. Qed.
Lemma cellw_sym N i k x y x' y' : x * x = x' * x' -> y * y = y' * y' -> cellw N i k x y = cellw N k i x' y'.
Proof. intros A B. unfold cellw. rewrite A, B. f_equal. unfold wedge, dcos. ring. Qed.
Lemma cyl_area r z L : (2 <= L)%Z -> asum (cyl_vs r z L) (cyl_ts L) = 2 * Rabs (r * (2 * z)) * hsum L + r * r * wabs L.
Proof.
  intros HL. set (vs := cyl_vs r z L). set (c := 2 * Rabs (r * (2 * z))). set (b := r * r / 2).
  assert (Rabs r * Rabs r = r * r) as RR by (rewrite <- Rabs_mult; apply Rabs_pos_eq, Rle_0_sqr).
  assert (forall i k, (0 <= i < L)%Z -> (0 <= k < L)%Z -> forall a b d e, a = (2 * i)%Z -> b = (2 * i + 1)%Z -> d = (2 * k + 1)%Z -> e = (2 * k)%Z ->
    asum vs (quad_ts a b d e) = c * halfs L i k) as SIDE.
  { intros i k Hi Hk a b' d e -> -> -> ->. rewrite asum_quad. unfold vs. rewrite !cyl_top, !cyl_bot by assumption. rewrite !(Rmult_comm _ r), !cell_area.
    rewrite !(Rminus_diag_eq r r eq_refl), !cellw_dz, (halfs_sym L k i).
    replace (- z - z) with (- (2 * z)) by ring. replace (z - - z) with (2 * z) by ring. rewrite Rabs_Ropp. unfold c. rewrite (Rabs_mult r). field. }
  assert (forall i k, (0 <= i < L)%Z -> (0 <= k < L)%Z -> forall x d, x = (2 * i)%Z -> d = (2 * k)%Z -> asum vs [((2 * L)%Z, x, d)] = b * Rabs (wedge L i k)) as TOP.
  { intros i k Hi Hk x d -> ->. rewrite asum_1. unfold vs. rewrite cyl_ctop, !cyl_top by lia. rewrite !(Rmult_comm _ r).
    replace (mkP 0 0 z) with (mkP (0 * cosa L i) (0 * sina L i) z) by (f_equal; ring). rewrite cell_area, (Rminus_diag_eq z z eq_refl), cellw_dr, Rminus_0_r. unfold b.
    rewrite <- RR. field. }
  assert (forall i k, (0 <= i < L)%Z -> (0 <= k < L)%Z -> forall x d, x = (2 * k + 1)%Z -> d = (2 * i + 1)%Z -> asum vs [((2 * L + 1)%Z, x, d)] = b * Rabs (wedge L i k)) as BOT.
  { intros i k Hi Hk x d -> ->. rewrite asum_1. unfold vs. rewrite cyl_cbot, !cyl_bot by lia. rewrite !(Rmult_comm _ r).
    replace (mkP 0 0 (- z)) with (mkP (0 * cosa L k) (0 * sina L k) (- z)) by (f_equal; ring). rewrite cell_area, (Rminus_diag_eq (- z) (- z) eq_refl), cellw_dr, Rminus_0_r, (wedge_sym L k i). unfold b.
    rewrite <- RR. field. }
  assert (forall f, rsum f (zrange 0 L) = rsum f (zrange 0 (L - 1)) + f (L - 1)%Z) as SPL.
  { intros f. assert (zrange 0 L = zrange 0 (L - 1 + 1)) as -> by (f_equal; lia). apply rsum_last. lia. }
  unfold cyl_ts. rewrite !asum_app, !asum_flat, !SPL.
  replace (2 * (L - 1) + 2)%Z with (2 * L)%Z by lia. replace (2 * (L - 1) + 3)%Z with (2 * L + 1)%Z by lia.
  rewrite (asum_1 vs (2 * L) _ (2 * L)), (asum_1 vs (2 * L + 1) (2 * L + 1)), (proj1 (area_cc _ _)), (proj2 (area_cc _ _)).
  rewrite (SIDE (L - 1)%Z 0%Z), (TOP (L - 1)%Z 0%Z), (BOT (L - 1)%Z 0%Z) by lia.
  rewrite (rsum_ext _ (fun i => c * halfs L i (i + 1)) (zrange 0 (L - 1))) by (intros i Hi; apply in_zrange in Hi; apply SIDE; lia).
  rewrite (rsum_ext (fun i => asum vs [(2 * L, 2 * i, 2 * i + 2)%Z]) (fun i => b * Rabs (wedge L i (i + 1))) (zrange 0 (L - 1))) by (intros i Hi; apply in_zrange in Hi; apply TOP; lia).
  rewrite (rsum_ext (fun i => asum vs [(2 * L + 1, 2 * i + 3, 2 * i + 1)%Z]) (fun i => b * Rabs (wedge L i (i + 1))) (zrange 0 (L - 1))) by (intros i Hi; apply in_zrange in Hi; apply BOT; lia).
  rewrite !rsum_scal. unfold hsum, wabs. rewrite (rsum_cycle_split (halfs L)), (rsum_cycle_split (fun i k => Rabs (wedge L i k))) by lia. unfold b. field.
Qed.
Lemma cylinder_area (h r : R) n m : reach m -> (0 <= n)%Z -> let N := (2 + 4 * n)%Z in
  exists m' s, create_cylinder h r n m = Ok m' /\ surface m' = Ok s /\ Rabs (s - prism_area N r h) <= tiny * (r * r + Rabs (r * h)) /\
    s <= 2 * PI * (r * r + Rabs (r * h)) /\ 2 * PI * (r * r + Rabs (r * h)) - s <= (44 / (IZR N * IZR N) + tiny) * (r * r + Rabs (r * h)).
Proof.
  intros Rm Hn N. destruct (cyl_is h r n m divides_R Rm Hn) as [m' [E I]]. rewrite dv_R in I by lia. fold N in I. assert (2 <= N)%Z as HN by (unfold N; lia).
  eexists m', _. split; [exact E|]. split; [exact (is_surface _ _ _ _ I)|]. change (sumR _) with (asum (cyl_vs r (h / IZR 2) N) (cyl_ts N)).
  rewrite cyl_area by exact HN. replace (2 * (h / IZR 2)) with h by field. unfold prism_area.
  destruct (hsum_facts N ltac:(lia)) as [A1 A2]. destruct (wabs_facts N HN) as [B1 B2]. pose proof e_small. pose proof tiny_e. pose proof (Rabs_pos (r * h)). assert (0 <= r * r) by apply Rle_0_sqr.
  set (x := Rabs (r * h)) in *. set (y := r * r) in *. assert (2 <= IZR N) as HNR by (apply IZR_le; lia).
  apply abs_between in A2, B2.
  assert (Rabs (2 * x * hsum N + y * wabs N - (gon (2 * N) * x + gon N * y)) <= tiny * (y + x)) as F.
  { replace (2 * x * hsum N + y * wabs N - (gon (2 * N) * x + gon N * y)) with ((2 * hsum N - gon (2 * N)) * x + (wabs N - gon N) * y) by ring. apply Rabs_le. nra. }
  split; [exact F|]. split; [nra|].
  destruct (gon_near N HN) as [_ G1]. destruct (gon_near (2 * N) ltac:(lia)) as [_ G2]. rewrite mult_IZR in G2.
  assert (0 < / (IZR N * IZR N)) as NP by (apply Rinv_0_lt_compat; nra).
  replace (44 / (2 * IZR N * (2 * IZR N))) with (11 * / (IZR N * IZR N)) in G2 by (field; lra). apply abs_between in F. unfold Rdiv in *. nra.
Qed.

(** ** Sphere *)
Definition chord (a b : R) : R := sqrt ((sin b - sin a) * (sin b - sin a) + (cos b - cos a) * (cos b - cos a)).
Lemma chord_sin a b : chord a b = 2 * Rabs (sin ((b - a) / 2)).
Proof.
  unfold chord. replace ((sin b - sin a) * (sin b - sin a) + (cos b - cos a) * (cos b - cos a)) with (Rsqr (2 * sin ((b - a) / 2))).
  - rewrite sqrt_Rsqr_abs, Rabs_mult, (Rabs_pos_eq 2) by lra. reflexivity.
  - unfold Rsqr. set (h := (b - a) / 2). assert (cos (2 * h) = cos b * cos a + sin b * sin a) as E by (rewrite <- cos_minus; f_equal; unfold h; field).
    rewrite cos_2a_sin in E. pose proof (sin2_cos2 a) as A. pose proof (sin2_cos2 b) as B. unfold Rsqr in A, B. lra.
Qed.
Lemma chord_weight a b : 0 <= b - a <= PI -> (sin a + sin b) * chord a b = 2 * cos ((b - a) / 2) * (cos a - cos b).
Proof.
  intros H. rewrite chord_sin, Rabs_pos_eq by (apply sin_ge_0; lra). rewrite form3, form2.
  replace ((a - b) / 2) with (- ((b - a) / 2)) by field. rewrite cos_neg, sin_neg. ring.
Qed.
Definition weight (M : Z) : R :=
  sin (lat M 1) * chord 0 (lat M 1) + rsum (fun j => (sin (lat M j) + sin (lat M (j + 1))) * chord (lat M j) (lat M (j + 1))) (zrange 1 (M - 1)) +
  sin (lat M (M - 1)) * chord (lat M (M - 1)) PI.
Lemma weight_eq M : (2 <= M)%Z -> let d := pi_lit / IZR M in
  weight M = 2 * cos (d / 2) * (1 + cos (d + e_)) + 2 * cos ((d + e_) / 2) * (1 - cos (d + e_)).
Proof.
  intros H d. assert (2 <= IZR M) as HM by (apply IZR_le; lia). pose proof PI_small. pose proof e_small. assert (0 < / IZR M <= / 2) as HI. { split; [apply Rinv_0_lt_compat; lra|]. apply Rinv_le_contravar; lra. }
  assert (0 <= d <= 16 / 10) as Hd. { unfold d. rewrite pi_lit_R. unfold Rdiv. nra. }
  assert (forall j, lat M j = IZR j * d) as L by (intros j; apply lat_R; lia). unfold weight.
  set (G := fun j => - (2 * cos (d / 2) * cos (IZR j * d))). rewrite (rsum_ext _ (fun j => G (j + 1)%Z - G j)).
  - rewrite rsum_tele by lia. unfold G. rewrite !L. replace (IZR 1 * d) with d by ring.
    replace (IZR (M - 1) * d) with (PI - (d + e_)) by (rewrite minus_IZR; unfold d; rewrite pi_lit_R; field; lra).
    pose proof (chord_weight 0 d ltac:(lra)) as A. rewrite sin_0, cos_0, Rplus_0_l, Rminus_0_r in A. rewrite A.
    pose proof (chord_weight (PI - (d + e_)) PI ltac:(lra)) as B. rewrite sin_PI, cos_PI, Rplus_0_r in B. rewrite B.
    replace (PI - (PI - (d + e_))) with (d + e_) by ring. rewrite cos_minus, cos_PI, sin_PI. ring.
  - intros j _. unfold G. rewrite !L. replace (IZR (j + 1) * d) with (IZR j * d + d) by (rewrite plus_IZR; ring).
    rewrite (chord_weight (IZR j * d) (IZR j * d + d)) by lra. replace (IZR j * d + d - IZR j * d) with d by ring. ring.
Qed.
Lemma cos_ge x : 1 - x * x / 2 <= cos x.
Proof.
  replace x with (2 * (x / 2)) at 3 by field. rewrite cos_2a_sin. pose proof (sin_abs_le (x / 2)) as S. assert (sin (x / 2) * sin (x / 2) <= x / 2 * (x / 2)); [|nra].
  rewrite <- (Rabs_pos_eq (sin (x / 2) * sin (x / 2))) by apply Rle_0_sqr. rewrite <- (Rabs_pos_eq (x / 2 * (x / 2))) by apply Rle_0_sqr. rewrite !Rabs_mult. apply Rmult_le_compat; try apply Rabs_pos; exact S.
Qed.
Lemma weight_facts N M : (2 <= N)%Z -> (N <= 2 * M)%Z -> (2 <= M)%Z -> 0 <= weight M <= 4 /\ 4 - weight M <= 2048 / 100 * / (IZR N * IZR N) + 2 * e_.
Proof.
  intros HN HNM H. rewrite weight_eq by exact H. set (d := pi_lit / IZR M). assert (2 <= IZR M) as HM by (apply IZR_le; lia). pose proof PI_small. pose proof e_small.
  assert (0 < / IZR M <= / 2) as HI. { split; [apply Rinv_0_lt_compat; lra|]. apply Rinv_le_contravar; lra. }
  assert (0 <= d <= 16 / 10) as Hd. { unfold d. rewrite pi_lit_R. unfold Rdiv. nra. }
  assert (0 <= cos (d / 2)) as C1 by (apply cos_ge_0; lra). assert (0 <= cos ((d + e_) / 2)) as C2 by (apply cos_ge_0; lra).
  pose proof (COS_bound (d / 2)) as C3. pose proof (COS_bound ((d + e_) / 2)) as C4. pose proof (COS_bound (d + e_)) as C5.
  pose proof (cos_ge (d / 2)) as G1. pose proof (cos_ge ((d + e_) / 2)) as G2.
  set (x := cos (d / 2)) in *. set (y := cos ((d + e_) / 2)) in *. set (c := cos (d + e_)) in *.
  split; [split; [apply Rplus_le_le_0_compat; (apply Rmult_le_pos; [lra|lra])|nra]|].
  assert (1 - (d + e_) * (d + e_) / 8 <= x) by nra. assert (1 - (d + e_) * (d + e_) / 8 <= y) by lra.
  assert ((d + e_) * (d + e_) <= 1024 / 100 * / (IZR M * IZR M) + 4 * e_) as Q.
  { set (p := PI * / IZR M). assert (d + e_ = p + e_ * (1 - / IZR M)) as -> by (unfold d, p; rewrite pi_lit_R; field; lra).
    assert (p * p <= 1024 / 100 * / (IZR M * IZR M)). { unfold p. replace (PI * / IZR M * (PI * / IZR M)) with (PI * PI * / (IZR M * IZR M)) by (field; lra). apply Rmult_le_compat_r; [left; apply Rinv_0_lt_compat; nra|nra]. }
    assert (0 <= p <= 16 / 10) by (unfold p; nra). set (q := e_ * (1 - / IZR M)). assert (0 <= q <= e_) by (unfold q; nra). nra. }
  pose proof (inv_sq N M HN HNM) as J. unfold Rdiv in *. nra.
Qed.
Lemma scale_len r x y : sqrt (r * x * (r * x) + r * y * (r * y)) = Rabs r * sqrt (x * x + y * y).
Proof. replace (r * x * (r * x) + r * y * (r * y)) with (Rsqr r * (x * x + y * y)) by (unfold Rsqr; ring). rewrite sqrt_mult_alt by apply Rle_0_sqr. rewrite sqrt_Rsqr_abs. reflexivity. Qed.
Lemma cellw_chord N i k r a b : let w := cellw N i k (r * sin b - r * sin a) (r * cos b - r * cos a) in
  Rabs (wedge N i k) * (Rabs r * chord a b) <= w <= 2 * halfs N i k * (Rabs r * chord a b).
Proof. cbv zeta. pose proof (cellw_bounds N i k (r * sin b - r * sin a) (r * cos b - r * cos a)) as H. rewrite <- !Rmult_minus_distr_l, scale_len in H. rewrite <- !Rmult_minus_distr_l. exact H. Qed.
Lemma chord_pos a b : 0 <= chord a b. Proof. apply sqrt_pos. Qed.
(** A triangle or pair of triangles of one cell. *)
Lemma cell_bounds N i k r a b t : 0 <= t -> let x := Rabs r * t / 2 * cellw N i k (r * sin b - r * sin a) (r * cos b - r * cos a) in
  Rabs (wedge N i k) / 2 * (r * r * (t * chord a b)) <= x <= halfs N i k * (r * r * (t * chord a b)).
Proof.
  intros Ht x. destruct (cellw_chord N i k r a b) as [A B]. unfold x. set (w := cellw _ _ _ _ _) in *. assert (Rabs r * Rabs r = r * r) as RR by (rewrite <- Rabs_mult; apply Rabs_pos_eq, Rle_0_sqr).
  rewrite <- RR. pose proof (Rabs_pos r). assert (0 <= Rabs r * t / 2) as P by (unfold Rdiv; apply Rmult_le_pos; [apply Rmult_le_pos; lra|lra]).
  pose proof (Rmult_le_compat_l _ _ _ P A) as A'. pose proof (Rmult_le_compat_l _ _ _ P B) as B'. lra.
Qed.
Lemma rsum_two (f g : Z -> R) lo hi l : (forall j, In j l -> lo * g j <= f j <= hi * g j) -> lo * rsum g l <= rsum f l <= hi * rsum g l.
Proof. intros H. rewrite <- !rsum_scal. split; apply rsum_le; intros j Hj; apply H, Hj. Qed.
Lemma uv_area r N M : (2 <= N)%Z -> (2 <= M)%Z ->
  wabs N / 2 * (r * r * weight M) <= asum (uv_vs r N M) (uv_ts N (M - 1)) <= PI * (r * r * weight M).
Proof.
  intros HN HM. unfold uv_ts. rewrite asum_flat.
  assert (0 <= r * r) as RR by apply Rle_0_sqr.
  assert (forall j, (1 <= j < M)%Z -> 0 < sin (lat M j)) as SP by (intros j Hj; apply lat_pos; exact Hj).
  assert (0 <= weight M) as WP.
  { unfold weight. pose proof (SP 1%Z ltac:(lia)). pose proof (SP (M - 1)%Z ltac:(lia)). pose proof (chord_pos 0 (lat M 1)). pose proof (chord_pos (lat M (M - 1)) PI).
    assert (rsum (fun _ => 0) (zrange 1 (M - 1)) <= rsum (fun j => (sin (lat M j) + sin (lat M (j + 1))) * chord (lat M j) (lat M (j + 1))) (zrange 1 (M - 1))) as Q.
    { apply rsum_le. intros j Hj. apply in_zrange in Hj. apply Rmult_le_pos; [|apply chord_pos]. pose proof (SP j ltac:(lia)). pose proof (SP (j + 1)%Z ltac:(lia)). lra. }
    rewrite rsum_const in Q by lia. rewrite Rmult_0_r in Q. apply Rplus_le_le_0_compat; [apply Rplus_le_le_0_compat; [apply Rmult_le_pos; lra|exact Q]|apply Rmult_le_pos; lra]. }
  set (F := fun i k =>
    Rabs r * sin (lat M 1) / 2 * cellw N i k (r * sin (lat M 1) - r * sin 0) (r * cos (lat M 1) - r * cos 0) +
    (rsum (fun j => Rabs r * (sin (lat M j) + sin (lat M (j + 1))) / 2 * cellw N i k (r * sin (lat M (j + 1)) - r * sin (lat M j)) (r * cos (lat M (j + 1)) - r * cos (lat M j))) (zrange 1 (M - 1)) +
    Rabs r * sin (lat M (M - 1)) / 2 * cellw N i k (r * sin PI - r * sin (lat M (M - 1))) (r * cos PI - r * cos (lat M (M - 1))))).
  rewrite (rsum_ext _ (fun i => F i (Z.rem (i + 1) N))).
  - apply turn_bounds; [exact HN|apply Rmult_le_pos; assumption|]. intros i k _ _. unfold F, weight.
    pose proof (SP 1%Z ltac:(lia)) as S1. pose proof (SP (M - 1)%Z ltac:(lia)) as S2.
    pose proof (cell_bounds N i k r 0 (lat M 1) (sin (lat M 1)) ltac:(lra)) as A. pose proof (cell_bounds N i k r (lat M (M - 1)) PI (sin (lat M (M - 1))) ltac:(lra)) as C. cbv zeta in A, C.
    pose proof (rsum_two (fun j => Rabs r * (sin (lat M j) + sin (lat M (j + 1))) / 2 * cellw N i k (r * sin (lat M (j + 1)) - r * sin (lat M j)) (r * cos (lat M (j + 1)) - r * cos (lat M j)))
      (fun j => r * r * ((sin (lat M j) + sin (lat M (j + 1))) * chord (lat M j) (lat M (j + 1)))) (Rabs (wedge N i k) / 2) (halfs N i k) (zrange 1 (M - 1))) as B.
    destruct B as [B1 B2]. { intros j Hj. apply in_zrange in Hj. apply cell_bounds. pose proof (SP j ltac:(lia)). pose proof (SP (j + 1)%Z ltac:(lia)). lra. }
    rewrite rsum_scal in B1, B2. lra.
  - intros i Hi. apply in_zrange in Hi. pose proof (rem_in i N Hi) as Hk. set (k := Z.rem (i + 1) N) in *. unfold uv_strip. fold k. rewrite !asum_app, asum_flat, !asum_1, uv_north, uv_south by lia.
    replace (at_ (uv_vs r N M) (i * (M - 1))) with (at_ (uv_vs r N M) (i * (M - 1) + (1 - 1))) by (f_equal; lia).
    replace (at_ (uv_vs r N M) (k * (M - 1))) with (at_ (uv_vs r N M) (k * (M - 1) + (1 - 1))) by (f_equal; lia).
    replace (i * (M - 1) + (M - 1) - 1)%Z with (i * (M - 1) + (M - 1 - 1))%Z by lia. replace (k * (M - 1) + (M - 1) - 1)%Z with (k * (M - 1) + (M - 1 - 1))%Z by lia.
    rewrite !uv_at by lia. unfold F. f_equal; [|f_equal].
    + replace (mkP 0 0 r) with (mkP (r * sin 0 * cosa N i) (r * sin 0 * sina N i) (r * cos 0)) by (rewrite sin_0, cos_0; f_equal; ring). rewrite cell_area, Rabs_mult, (Rabs_pos_eq (sin (lat M 1))); [reflexivity|]. left. apply SP. lia.
    + apply rsum_ext. intros j Hj. apply in_zrange in Hj. rewrite asum_quad.
      replace (i * (M - 1) + j - 1)%Z with (i * (M - 1) + (j - 1))%Z by lia. replace (i * (M - 1) + j)%Z with (i * (M - 1) + (j + 1 - 1))%Z by lia.
      replace (k * (M - 1) + j - 1)%Z with (k * (M - 1) + (j - 1))%Z by lia. replace (k * (M - 1) + j)%Z with (k * (M - 1) + (j + 1 - 1))%Z by lia.
      rewrite !uv_at by lia. rewrite !cell_area, !Rabs_mult, (Rabs_pos_eq (sin (lat M j))), (Rabs_pos_eq (sin (lat M (j + 1)))) by (left; apply SP; lia).
      rewrite (cellw_sym N k i (r * sin (lat M j) - r * sin (lat M (j + 1))) (r * cos (lat M j) - r * cos (lat M (j + 1))) (r * sin (lat M (j + 1)) - r * sin (lat M j)) (r * cos (lat M (j + 1)) - r * cos (lat M j))) by ring. field.
    + rewrite area3_swap. replace (mkP 0 0 (- r)) with (mkP (r * sin PI * cosa N i) (r * sin PI * sina N i) (r * cos PI)) by (rewrite sin_PI, cos_PI; f_equal; ring).
      rewrite cell_area, Rabs_mult, (Rabs_pos_eq (sin (lat M (M - 1)))) by (left; apply SP; lia). f_equal.
      unfold cellw. f_equal. ring.
Qed.
Lemma sphere_area (r : R) n m : reach m -> (0 <= n)%Z -> let N := IZR (2 + 4 * n) in
  exists m' s, create_sphere_uv r n m = Ok m' /\ surface m' = Ok s /\
    s <= 4 * PI * (r * r) /\ 4 * PI * (r * r) - s <= (154 / (N * N) + tiny) * (r * r).
Proof.
  intros Rm Hn N. destruct (uv_is r n m divides_R Rm) as [m' [E I]]. replace (1 + 2 * n)%Z with (2 + 2 * n - 1)%Z in I by lia.
  eexists m', _. split; [exact E|]. split; [exact (is_surface _ _ _ _ I)|].
  match goal with |- ?x <= _ /\ _ => change x with (asum (uv_vs r (2 + 4 * n) (2 + 2 * n)) (uv_ts (2 + 4 * n) (2 + 2 * n - 1))) end.
  destruct (uv_area r (2 + 4 * n) (2 + 2 * n) ltac:(lia) ltac:(lia)) as [A B]. destruct (weight_facts (2 + 4 * n) (2 + 2 * n) ltac:(lia) ltac:(lia) ltac:(lia)) as [W1 W2].
  destruct (wabs_facts (2 + 4 * n) ltac:(lia)) as [V1 V2]. destruct (gon_near (2 + 4 * n) ltac:(lia)) as [[G0 _] G]. fold N in G, W2. apply abs_between in V2.
  set (s := asum _ _) in *. set (w := weight _) in *. set (v := wabs _) in *. assert (0 <= r * r) as RR by apply Rle_0_sqr. pose proof e_small. pose proof tiny_e. pose proof PI_small.
  assert (2 <= N) by (apply IZR_le; lia). assert (0 < / (N * N)) by (apply Rinv_0_lt_compat; nra).
  split; [assert (PI * (r * r * w) <= PI * (r * r * 4)) by (apply Rmult_le_compat_l; [lra|apply Rmult_le_compat_l; lra]); lra|].
  assert (4 * PI - v / 2 * w <= 154 / (N * N) + tiny) as K.
  { replace (4 * PI - v / 2 * w) with (4 * (PI - v / 2) + (v / 2) * (4 - w)) by field.
    assert (v / 2 * (4 - w) <= 32 / 10 * (2048 / 100 * / (N * N) + 2 * e_)) as T.
    { apply Rle_trans with (32 / 10 * (4 - w)); [apply Rmult_le_compat_r; lra|apply Rmult_le_compat_l; lra]. }
    unfold Rdiv in *. lra. }
  apply Rle_trans with ((4 * PI - v / 2 * w) * (r * r)); [lra|apply Rmult_le_compat_r; assumption].
Qed.

(** ** Torus *)
Lemma ring_len rm M j k : 0 <= rm -> sqrt ((ringr 0 rm M k - ringr 0 rm M j) * (ringr 0 rm M k - ringr 0 rm M j) + (ringz rm M k - ringz rm M j) * (ringz rm M k - ringz rm M j)) = 2 * rm * halfs M j k.
Proof.
  intros H. unfold ringr, ringz, halfs. pose proof (dcos_le M j k). pose proof (cosa_sina M j) as A. pose proof (cosa_sina M k) as B.
  match goal with |- sqrt ?x = _ => replace x with (2 * rm * (2 * rm) * ((1 - dcos M j k) / 2)) end.
  - rewrite sqrt_mult_alt by apply Rle_0_sqr. rewrite sqrt_square by lra. reflexivity.
  - unfold dcos. revert A B. generalize (cosa M j) (sina M j) (cosa M k) (sina M k). intros c s c' s' A B.
    transitivity (rm * rm * (2 - 2 * (c * c' + s * s'))); [field|]. nsatz.
Qed.
Definition cosh_ (M : Z) : R := rsum (fun j => (cosa M j + cosa M (Z.rem (j + 1) M)) * halfs M j (Z.rem (j + 1) M)) (zrange 0 M).
Lemma cosh_facts M : (3 <= M)%Z -> - e_ <= cosh_ M <= 0.
Proof.
  intros H. assert (3 <= IZR M) as HM by (apply IZR_le; lia). pose proof PI_small. pose proof e_small. assert (0 < / IZR M <= / 3) as HI. { split; [apply Rinv_0_lt_compat; lra|]. apply Rinv_le_contravar; lra. }
  set (b := pi_lit / IZR M). assert (0 < b <= 107 / 100) as Hb. { unfold b. rewrite pi_lit_R. unfold Rdiv. nra. }
  assert (forall j, angle j M = IZR j * (2 * b)) as L by (intros j; rewrite angle_R by lia; unfold b; field; lra).
  unfold cosh_. rewrite (rsum_cycle_split (fun j k => (cosa M j + cosa M k) * halfs M j k)) by lia.
  set (G := fun j => cos b * sin (IZR j * (2 * b))). rewrite (rsum_ext _ (fun j => G (j + 1)%Z - G j)).
  - rewrite rsum_tele by lia. rewrite halfs_sin. unfold cosa. rewrite !L. unfold G.
    replace (IZR (M - 1) * (2 * b)) with (2 * PI - 2 * (b + e_)) by (rewrite minus_IZR; unfold b; rewrite pi_lit_R; field; lra).
    rewrite !Rmult_0_l, sin_0, cos_0. replace ((0 - (2 * PI - 2 * (b + e_))) / 2) with (b + e_ - PI) by field.
    rewrite (sin_minus (b + e_) PI), (sin_minus (2 * PI)), (cos_minus (2 * PI)), cos_2PI, sin_2PI, cos_PI, sin_PI.
    replace (sin (b + e_) * -1 - cos (b + e_) * 0) with (- sin (b + e_)) by ring. rewrite Rabs_Ropp, (Rabs_pos_eq (sin (b + e_))) by (apply sin_ge_0; lra).
    rewrite sin_2a, cos_2a_cos.
    match goal with |- _ <= ?x <= _ => replace x with (2 * sin (b + e_) * cos (b + e_) * (cos (b + e_) - cos b)) by ring end. rewrite <- sin_2a.
    pose proof (cos_lip (b + e_) b) as C. replace (b + e_ - b) with e_ in C by ring. rewrite (Rabs_pos_eq e_) in C by lra. apply abs_between in C.
    assert (cos (b + e_) <= cos b) as D by (apply cos_decr_1; lra). assert (0 <= sin (2 * (b + e_)) <= 1) as S by (split; [apply sin_ge_0; lra|apply SIN_bound]). nra.
  - intros j _. unfold G, cosa. rewrite halfs_sin, !L. replace (IZR (j + 1) * (2 * b)) with (IZR j * (2 * b) + 2 * b) by (rewrite plus_IZR; ring).
    replace ((IZR j * (2 * b) + 2 * b - IZR j * (2 * b)) / 2) with b by field. rewrite (Rabs_pos_eq (sin b)) by (apply sin_ge_0; lra).
    set (t := IZR j * (2 * b)). rewrite cos_plus, sin_plus, sin_2a, cos_2a_cos. pose proof (sin2_cos2 b) as Q. unfold Rsqr in Q. revert Q. generalize (sin b) (cos b) (sin t) (cos t). intros x y z w Q. nsatz.
Qed.
Definition tube_weight (rM rm : R) (M : Z) : R := 4 * (rM * rm) * hsum M + 2 * (rm * rm) * cosh_ M.
Lemma torus_area0 rM rm N M : (2 <= N)%Z -> (3 <= M)%Z -> 0 <= rm <= rM ->
  wabs N / 2 * tube_weight rM rm M <= asum (torus_vs rM rm N M) (torus_ts N M) <= PI * tube_weight rM rm M.
Proof.
  intros HN HM Hr. unfold torus_ts. rewrite asum_flat.
  assert (forall j, 0 <= ringr rM rm M j) as RP. { intros j. unfold ringr, cosa. pose proof (COS_bound (angle j M)). nra. }
  set (P := rsum (fun j => (ringr rM rm M j + ringr rM rm M (Z.rem (j + 1) M)) * (2 * rm * halfs M j (Z.rem (j + 1) M))) (zrange 0 M)).
  assert (P = tube_weight rM rm M) as EP.
  { unfold P, tube_weight, hsum, cosh_. rewrite <- !rsum_scal, <- rsum_plus. apply rsum_ext. intros j _. unfold ringr. ring. }
  assert (0 <= P) as PP.
  { assert (rsum (fun _ => 0) (zrange 0 M) <= P) as Q.
    { apply rsum_le. intros j _. apply Rmult_le_pos; [apply Rplus_le_le_0_compat; apply RP|]. pose proof (halfs_pos M j (Z.rem (j + 1) M)). apply Rmult_le_pos; lra. }
    rewrite rsum_const in Q by lia. lra. }
  rewrite <- EP.
  set (F := fun i k => rsum (fun j => (ringr rM rm M j + ringr rM rm M (Z.rem (j + 1) M)) / 2 *
     cellw N i k (ringr rM rm M (Z.rem (j + 1) M) - ringr rM rm M j) (ringz rm M (Z.rem (j + 1) M) - ringz rm M j)) (zrange 0 M)).
  rewrite (rsum_ext _ (fun i => F i (Z.rem (i + 1) N))).
  - apply turn_bounds; [exact HN|exact PP|]. intros i k _ _. unfold F, P. apply rsum_two. intros j _. set (j' := Z.rem (j + 1) M).
    pose proof (cellw_bounds N i k (ringr rM rm M j' - ringr rM rm M j) (ringz rm M j' - ringz rm M j)) as [A B].
    replace (ringr rM rm M j' - ringr rM rm M j) with (ringr 0 rm M j' - ringr 0 rm M j) in * by (unfold ringr; ring).
    rewrite ring_len in A, B by lra. set (w := cellw _ _ _ _ _) in *. pose proof (RP j). pose proof (RP j'). assert (0 <= (ringr rM rm M j + ringr rM rm M j') / 2) as Q by lra.
    pose proof (Rmult_le_compat_l _ _ _ Q A). pose proof (Rmult_le_compat_l _ _ _ Q B). lra.
  - intros i Hi. apply in_zrange in Hi. pose proof (rem_in i N Hi) as Hk. set (k := Z.rem (i + 1) N) in *. rewrite asum_flat. unfold F. apply rsum_ext. intros j Hj. apply in_zrange in Hj. pose proof (rem_in j M Hj) as Hj'.
    set (j' := Z.rem (j + 1) M) in *. rewrite asum_quad, !torus_at by assumption. rewrite !cell_area, (Rabs_pos_eq (ringr rM rm M j)), (Rabs_pos_eq (ringr rM rm M j')) by apply RP.
    rewrite (cellw_sym N k i (ringr rM rm M j' - ringr rM rm M j) (ringz rm M j' - ringz rm M j) (ringr rM rm M j' - ringr rM rm M j) (ringz rm M j' - ringz rm M j)) by reflexivity.
    replace (cellw N i k (ringr rM rm M j - ringr rM rm M j') (ringz rm M j - ringz rm M j')) with (cellw N i k (ringr rM rm M j' - ringr rM rm M j) (ringz rm M j' - ringz rm M j)) by (unfold cellw; f_equal; ring). field.
Qed.
Lemma torus_area (rM rm : R) n m : reach m -> (0 <= n)%Z -> 0 <= rm <= rM -> let N := IZR (2 + 4 * n) in
  exists m' s, create_torus rM rm n m = Ok m' /\ surface m' = Ok s /\
    s <= 4 * (PI * PI) * (rM * rm) /\ 4 * (PI * PI) * (rM * rm) - s <= (564 / (N * N) + 2 * tiny) * (rM * rm).
Proof.
  intros Rm Hn Hr N. destruct (torus_is rM rm n m divides_R Rm) as [m' [E I]].
  eexists m', _. split; [exact E|]. split; [exact (is_surface _ _ _ _ I)|].
  match goal with |- ?x <= _ /\ _ => change x with (asum (torus_vs rM rm (2 + 4 * n) (6 + 2 * n)) (torus_ts (2 + 4 * n) (6 + 2 * n))) end.
  destruct (torus_area0 rM rm (2 + 4 * n) (6 + 2 * n) ltac:(lia) ltac:(lia) Hr) as [A B]. destruct (cosh_facts (6 + 2 * n) ltac:(lia)) as [X1 X2].
  destruct (hsum_facts (6 + 2 * n) ltac:(lia)) as [S1 S2]. destruct (gon_near (2 * (6 + 2 * n)) ltac:(lia)) as [_ S3]. rewrite mult_IZR in S3.
  pose proof (inv_sq (2 + 4 * n) (6 + 2 * n) ltac:(lia) ltac:(lia)) as J. fold N in J.
  destruct (wabs_facts (2 + 4 * n) ltac:(lia)) as [V1 V2]. destruct (gon_near (2 + 4 * n) ltac:(lia)) as [[G0 _] G]. fold N in G. apply abs_between in V2, S2.
  unfold tube_weight in A, B. set (s := asum _ _) in *. set (v := wabs _) in *. set (h := hsum _) in *. set (c := cosh_ _) in *. set (M := IZR (6 + 2 * n)) in *.
  assert (0 <= rM * rm) as RR by (apply Rmult_le_pos; lra). assert (0 <= rm * rm <= rM * rm) as R2 by nra. pose proof e_small. pose proof tiny_e. pose proof PI_small.
  assert (2 <= N) by (apply IZR_le; lia). assert (6 <= M) by (apply IZR_le; lia). assert (0 < / (N * N)) by (apply Rinv_0_lt_compat; nra).
  replace (44 / (2 * M * (2 * M))) with (11 * / (M * M)) in S3 by (field; lra).
  assert (PI - 22 / (N * N) - 2 * e_ <= h) as HL by (unfold Rdiv in *; lra).
  set (P := 4 * (rM * rm) * h + 2 * (rm * rm) * c) in *.
  assert (P <= 4 * PI * (rM * rm)) as PU by (unfold P; nra).
  assert (4 * PI * (rM * rm) - P <= (88 / (N * N) + 10 * e_) * (rM * rm)) as PL by (unfold P, Rdiv in *; nra).
  split; [assert (PI * P <= PI * (4 * PI * (rM * rm))) by (apply Rmult_le_compat_l; lra); lra|].
  replace (4 * (PI * PI) * (rM * rm) - s) with (4 * PI * (PI - v / 2) * (rM * rm) + v / 2 * (4 * PI * (rM * rm) - P) + (v / 2 * P - s)) by field.
  assert (v / 2 * (4 * PI * (rM * rm) - P) <= 32 / 10 * ((88 / (N * N) + 10 * e_) * (rM * rm))) as T1.
  { apply Rle_trans with (32 / 10 * (4 * PI * (rM * rm) - P)); [apply Rmult_le_compat_r; lra|apply Rmult_le_compat_l; lra]. }
  assert (4 * PI * (PI - v / 2) <= 128 / 10 * (22 / (N * N) + 2 * e_)) as T2.
  { apply Rle_trans with (128 / 10 * (PI - v / 2)); [apply Rmult_le_compat_r; lra|apply Rmult_le_compat_l; [lra|]]. unfold Rdiv in *. lra. }
  pose proof (Rmult_le_compat_r _ _ _ RR T2) as T3.
  apply Rle_trans with ((128 / 10 * (22 / (N * N) + 2 * e_) + 32 / 10 * (88 / (N * N) + 10 * e_)) * (rM * rm)); [lra|]. apply Rmult_le_compat_r; [exact RR|]. unfold Rdiv in *. lra.
Qed.
