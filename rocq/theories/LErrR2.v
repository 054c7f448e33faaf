(** Round solids in doubles: places, volumes and orientation. *)
From Coq Require Import ZArith List Bool Reals Lra Lia Psatz.
From Flocq Require Import Core Relative IEEE754.Binary IEEE754.Bits IEEE754.BinarySingleNaN.
From Verif Require Import Base Num MGeometry MKernel MMesh MMeshRun MMeasure MUtil MMeshFactory MTransform MStl MF64 SMesh SReach SGeom SMeasure SMeshFac SRound SErr SErrN SErrT SErrD
  LClosed LBase LMesh LReach LGeom LMeasure LMeasure2 LMeshFac LMeshFac2 LMeshFac3 LMeshFac4 LMeshFac5 LMeshFac7 LPi LRound LRound2 LRound3 LRound4 LF64 LF64Arith LErr1 LErr2 LF64Ord LErr3 LErr4 LErr5 LErr6 LErrEx LErrT LErrD LErrR.
Import ListNotations.
Open Scope R_scope.

Local Notation tiny := SRound.tiny.
Lemma tiny_u : 0 < tiny <= 0.05 * uu. Proof. unfold SRound.tiny. rewrite uu_val. lra. Qed.
Lemma rnear_dist B e p P : 0 <= e -> rnear B e p P -> dist3 p P <= 1.75 * e.
Proof. intros He (_ & _ & C). unfold dist3. apply len3_in_cube; [exact C|exact He]. Qed.
Lemma place K E e vs Vs i Q t : 0 <= E -> Forall2 (pnear K E) vs Vs -> dist3 (at_ Vs i) Q <= t -> 1.75 * E + t <= e -> dist3 (at_ (map val_pt vs) i) Q <= e.
Proof. intros HE H D L. pose proof (rnear_dist _ _ _ _ HE (rnear_at K E vs Vs i HE H)). eapply Rle_trans; [apply (dist3_triangle _ (at_ Vs i))|]. lra. Qed.
Lemma vol_place v M t e e' s : close_to v M e -> Rabs (M - s) <= t -> e + t <= e' -> close_to v s e'.
Proof. intros [F D] A L. split; [exact F|]. replace (val v - s) with (val v - M + (M - s)) by ring. eapply Rle_trans; [apply Rabs_triang|]. lra. Qed.
Lemma oriented_near (m : Mesh f64) vs Vs ts c K e : (-200 <= K <= 200)%Z -> 0 <= e -> is m vs ts c -> (len ts <= 2 ^ 50)%Z -> Forall2 (pnear K (e * bpow radix2 (K - 53))) vs Vs ->
  3 * IZR (len ts) * (IZR (len ts) + 8 + e) * bpow radix2 (3 * K - 53) < msum Vs ts -> is_oriented_outside m = Ok true.
Proof.
  intros HK He [Rm S] HL H L.
  refine (proj1 (reach_oriented_err m _ K Rm S HK _ _) _).
  { cbn [averts]. clear -H. induction H as [|p P vs Vs Hp _ IH]; constructor; [apply Hp|exact IH]. }
  { rewrite live_alive. exact HL. }
  cbn zeta. rewrite live_alive, val_mesh_is, total_msum.
  assert (0 <= e * bpow radix2 (K - 53)) as E0 by (apply Rmult_le_pos; [exact He|apply bpow_ge_0]).
  pose proof (msum_near (bpow radix2 K) _ (map val_pt vs) Vs ts E0 (fun i => rnear_at K _ vs Vs i E0 H)) as M.
  assert (bpow radix2 (3 * K - 53) = bpow radix2 K * bpow radix2 K * bpow radix2 (K - 53)) as W by (rewrite <- !bpow_plus; f_equal; lia).
  rewrite W in *. set (X := bpow radix2 K * bpow radix2 K) in *. set (Y := bpow radix2 (K - 53)) in *. set (n := IZR (len ts)) in *. set (a := msum (map val_pt vs) ts) in *. set (b := msum Vs ts) in *. clearbody X Y n a b.
  apply Rabs_le_inv in M. replace (3 * n * (n + 8 + e) * (X * Y)) with (3 * n * (n + 8) * (X * Y) + n * (3 * (X * (e * Y)))) in L by ring. lra.
Qed.
Lemma ap_split k j : bpow radix2 (k + j) = bpow radix2 k * bpow radix2 j. Proof. apply bpow_plus. Qed.
Lemma cube_bound k : bpow radix2 (3 * k - 53) = bpow radix2 k * bpow radix2 k * bpow radix2 k * uu. Proof. unfold uu. rewrite <- !bpow_plus. f_equal. lia. Qed.
Lemma unit_bound k : bpow radix2 (k - 53) = bpow radix2 k * uu. Proof. unfold uu. rewrite <- bpow_plus. reflexivity. Qed.
Lemma prod3_le x y z b : Rabs x <= b -> Rabs y <= b -> Rabs z <= b -> Rabs x * Rabs y * Rabs z <= b * b * b.
Proof. intros. pose proof (Rabs_pos x). pose proof (Rabs_pos y). pose proof (Rabs_pos z). apply Rmult_le_compat; [apply Rmult_le_pos; lra|lra| |lra]. apply Rmult_le_compat; lra. Qed.

Section Solids.
Variable TR : Trig f64.
Hypothesis G : good_trig TR.
Variable k : Z.
Hypothesis Hk : (-190 <= k <= 190)%Z.
Variable n : Z.
Hypothesis Hn : (0 <= n <= 2 ^ 20)%Z.
Variable m : Mesh f64.
Hypothesis Rm : reach m.
Let S3 : R := bpow radix2 k * bpow radix2 k * bpow radix2 k.
Let S3p : 0 < S3. Proof. unfold S3. pose proof (bpow_gt_0 radix2 k). repeat apply Rmult_lt_0_compat; assumption. Qed.

Lemma cylinder64 (h r : f64) : fits k h -> fits k r -> let N := (2 + 4 * n)%Z in let t := IZR (10 + 16 * n) in
  exists m' a v, create_cylinder h r n m = Ok m' /\ reach m' /\ shows m' a /\ len (live a) = (10 + 16 * n)%Z /\
    (forall i, (0 <= i < N)%Z -> dist3 (pt (val_mesh a) (2 * i) O3) (cylinder_point (val r) (val h / 2) (part N i)) <= 27 * bpow radix2 (k - 53) /\
                                 dist3 (pt (val_mesh a) (2 * i + 1) O3) (cylinder_point (val r) (- (val h / 2)) (part N i)) <= 27 * bpow radix2 (k - 53)) /\
    dist3 (pt (val_mesh a) (2 * N) O3) (mkP 0 0 (val h / 2)) <= 27 * bpow radix2 (k - 53) /\ dist3 (pt (val_mesh a) (2 * N + 1) O3) (mkP 0 0 (- (val h / 2))) <= 27 * bpow radix2 (k - 53) /\
    volume m' = Ok v /\ close_to v (prism_volume N (val r) (val h)) (3 * t * (t + 24) * bpow radix2 (3 * k - 53)) /\
    (3 * t * (t + 24) * bpow radix2 (3 * k - 53) < prism_volume N (val r) (val h) -> is_oriented_outside m' = Ok true).
Proof.
  intros Hh Hr N t. destruct (cyl_is h r n m divides_f64 Rm ltac:(lia)) as [m' [E I]]. fold N in I. assert (2 <= N)%Z as HN by (unfold N; lia). assert (1 <= N <= 2 ^ 50)%Z as HN2 by (unfold N; lia).
  pose proof (cyl_near64 TR G k Hk h r N Hh Hr HN2) as F. rewrite (dv_R (val h)) in F by lia.
  assert (len (cyl_ts N) = 10 + 16 * n)%Z as LT by (rewrite cyl_ts_len by lia; unfold N; lia). assert (len (cyl_ts N) <= 2 ^ 50)%Z as LT2 by (rewrite LT; lia).
  assert (1 <= t) as T1 by (apply IZR_le; lia).
  assert (0 <= 15 * bpow radix2 (k - 53)) as E0 by (pose proof (bpow_ge_0 radix2 (k - 53)); lra). pose proof tiny_u as [T0 TU]. pose proof (bpow_gt_0 radix2 k) as K0. pose proof uu_pos as U.
  assert (Rabs (val r) <= bpow radix2 k) as BR by apply Hr. assert (Rabs (val h) <= bpow radix2 k) as BH by apply Hh.
  assert (tiny * Rabs (val r) <= 0.05 * bpow radix2 (k - 53)) as TR1. { rewrite unit_bound. pose proof (Rabs_pos (val r)). replace (0.05 * (bpow radix2 k * uu)) with (0.05 * uu * bpow radix2 k) by ring. apply Rmult_le_compat; lra. }
  assert (Rabs (msum (cyl_vs (val r) (val h / 2) N) (cyl_ts N) - prism_volume N (val r) (val h)) <= bpow radix2 (3 * k - 53)) as V1.
  { rewrite cyl_volume by exact HN. eapply Rle_trans; [apply (cyl_volume_near _ _ _ HN)|]. rewrite cube_bound. fold S3.
    pose proof (prod3_le _ _ _ _ BR BR BH) as Q. rewrite <- Rabs_mult, (Rabs_pos_eq (val r * val r)) in Q by apply Rle_0_sqr. fold S3 in Q.
    apply Rle_trans with (0.05 * uu * S3); [|nra]. apply Rmult_le_compat; [lra| |lra|exact Q]. apply Rmult_le_pos; [apply Rle_0_sqr|apply Rabs_pos]. }
  destruct (volume_near m' _ _ _ _ k 15 ltac:(lia) ltac:(lra) I LT2 F) as (v & Ev & Cv). rewrite LT in Cv. fold t in Cv.
  pose proof (bpow_gt_0 radix2 (3 * k - 53)) as C0.
  assert (3 * t * (t + 8 + 15) * bpow radix2 (3 * k - 53) + bpow radix2 (3 * k - 53) <= 3 * t * (t + 24) * bpow radix2 (3 * k - 53)) as LL. { replace (3 * t * (t + 24) * bpow radix2 (3 * k - 53)) with (3 * t * (t + 8 + 15) * bpow radix2 (3 * k - 53) + 3 * t * bpow radix2 (3 * k - 53)) by ring. nra. }
  eexists m', _, v. split; [exact E|]. split; [apply I|]. split; [apply I|]. split; [rewrite live_alive; exact LT|]. split; [|split; [|split; [|split; [exact Ev|split]]]].
  - intros i Hi. split.
    + eapply (place k _ _ _ _ (2 * i) _ _ E0 F); [rewrite cyl_top by exact Hi; apply cyl_near; exact Hi|lra].
    + eapply (place k _ _ _ _ (2 * i + 1) _ _ E0 F); [rewrite cyl_bot by exact Hi; apply cyl_near; exact Hi|lra].
  - eapply (place k _ _ _ _ (2 * N) _ 0 E0 F); [rewrite cyl_ctop by lia; rewrite dist3_refl; lra|lra].
  - eapply (place k _ _ _ _ (2 * N + 1) _ 0 E0 F); [rewrite cyl_cbot by lia; rewrite dist3_refl; lra|lra].
  - exact (vol_place _ _ _ _ _ _ Cv V1 LL).
  - intros W. apply (oriented_near m' _ _ _ _ k 15 ltac:(lia) ltac:(lra) I LT2 F). rewrite LT. fold t. apply Rabs_le_inv in V1. lra.
Qed.
Lemma sphere64 (r : f64) : fits k r -> let N := (2 + 4 * n)%Z in let M := (2 + 2 * n)%Z in let t := IZR (2 * (4 * n + 2) * (2 * n + 1)) in
  exists m' a v, create_sphere_uv r n m = Ok m' /\ reach m' /\ shows m' a /\ len (live a) = (2 * (4 * n + 2) * (2 * n + 1))%Z /\
    (forall i j, (0 <= i < N)%Z -> (1 <= j < M)%Z -> dist3 (pt (val_mesh a) (i * (M - 1) + (j - 1)) O3) (sphere_point (val r) (part N i) (half_part M j)) <= 53 * bpow radix2 (k - 53)) /\
    dist3 (pt (val_mesh a) (N * (M - 1)) O3) (mkP 0 0 (val r)) <= 53 * bpow radix2 (k - 53) /\ dist3 (pt (val_mesh a) (N * (M - 1) + 1) O3) (mkP 0 0 (- val r)) <= 53 * bpow radix2 (k - 53) /\
    volume m' = Ok v /\ close_to v (globe_volume N M (val r)) (3 * t * (t + 39) * bpow radix2 (3 * k - 53)) /\
    (3 * t * (t + 39) * bpow radix2 (3 * k - 53) < globe_volume N M (val r) -> is_oriented_outside m' = Ok true).
Proof.
  intros Hr N M t. destruct (uv_is r n m divides_f64 Rm) as [m' [E I]]. fold N in I. fold M in I. replace (1 + 2 * n)%Z with (M - 1)%Z in I by (unfold M; lia).
  assert (2 <= N)%Z as HN by (unfold N; lia). assert (1 <= N <= 2 ^ 50)%Z as HN2 by (unfold N; lia). assert (2 <= M)%Z as HM by (unfold M; lia). assert (1 <= M <= 2 ^ 50)%Z as HM2 by (unfold M; lia).
  pose proof (uv_near64 TR G k Hk r N M Hr HN2 HM2) as F.
  assert (len (uv_ts N (M - 1)) = 2 * (4 * n + 2) * (2 * n + 1))%Z as LT by (rewrite uv_ts_len by lia; unfold N, M; lia).
  assert (len (uv_ts N (M - 1)) <= 2 ^ 50)%Z as LT2 by (rewrite LT; nia).
  assert (1 <= t) as T1 by (apply IZR_le; nia).
  assert (0 <= 30 * bpow radix2 (k - 53)) as E0 by (pose proof (bpow_ge_0 radix2 (k - 53)); lra). pose proof tiny_u as [T0 TU]. pose proof (bpow_gt_0 radix2 k) as K0. pose proof uu_pos as U.
  assert (Rabs (val r) <= bpow radix2 k) as BR by apply Hr.
  assert (tiny * Rabs (val r) <= 0.05 * bpow radix2 (k - 53)) as TR1. { rewrite unit_bound. pose proof (Rabs_pos (val r)). replace (0.05 * (bpow radix2 k * uu)) with (0.05 * uu * bpow radix2 k) by ring. apply Rmult_le_compat; lra. }
  assert (Rabs (msum (uv_vs (val r) N M) (uv_ts N (M - 1)) - globe_volume N M (val r)) <= bpow radix2 (3 * k - 53)) as V1.
  { rewrite uv_volume by lia. eapply Rle_trans; [apply uv_volume_near; lia|]. rewrite cube_bound. fold S3.
    pose proof (prod3_le _ _ _ _ BR BR BR) as Q. fold S3 in Q. pose proof (Rabs_pos (val r)).
    apply Rle_trans with (0.05 * uu * S3); [|nra]. apply Rmult_le_compat; [lra| |lra|exact Q]. apply Rmult_le_pos; [apply Rmult_le_pos; lra|lra]. }
  destruct (volume_near m' _ _ _ _ k 30 ltac:(lia) ltac:(lra) I LT2 F) as (v & Ev & Cv). rewrite LT in Cv. fold t in Cv.
  pose proof (bpow_gt_0 radix2 (3 * k - 53)) as C0.
  assert (3 * t * (t + 8 + 30) * bpow radix2 (3 * k - 53) + bpow radix2 (3 * k - 53) <= 3 * t * (t + 39) * bpow radix2 (3 * k - 53)) as LL. { replace (3 * t * (t + 39) * bpow radix2 (3 * k - 53)) with (3 * t * (t + 8 + 30) * bpow radix2 (3 * k - 53) + 3 * t * bpow radix2 (3 * k - 53)) by ring. nra. }
  eexists m', _, v. split; [exact E|]. split; [apply I|]. split; [apply I|]. split; [rewrite live_alive; exact LT|]. split; [|split; [|split; [|split; [exact Ev|split]]]].
  - intros i j Hi Hj. eapply (place k _ _ _ _ (i * (M - 1) + (j - 1)) _ _ E0 F); [rewrite uv_at by assumption; apply uv_near; lia|lra].
  - eapply (place k _ _ _ _ (N * (M - 1)) _ 0 E0 F); [rewrite (Z.mul_comm N), uv_north by lia; rewrite dist3_refl; lra|lra].
  - eapply (place k _ _ _ _ (N * (M - 1) + 1) _ 0 E0 F); [rewrite (Z.mul_comm N), uv_south by lia; rewrite dist3_refl; lra|lra].
  - exact (vol_place _ _ _ _ _ _ Cv V1 LL).
  - intros W. apply (oriented_near m' _ _ _ _ k 30 ltac:(lia) ltac:(lra) I LT2 F). rewrite LT. fold t. apply Rabs_le_inv in V1. lra.
Qed.
Lemma torus64 (rM rm : f64) : fits k rM -> fits k rm -> let N := (2 + 4 * n)%Z in let M := (6 + 2 * n)%Z in let t := IZR (2 * (4 * n + 2) * (2 * n + 6)) in
  exists m' a v, create_torus rM rm n m = Ok m' /\ reach m' /\ shows m' a /\ len (live a) = (2 * (4 * n + 2) * (2 * n + 6))%Z /\
    (forall i j, (0 <= i < N)%Z -> (0 <= j < M)%Z -> dist3 (pt (val_mesh a) (i * M + j) O3) (torus_point (val rM) (val rm) (part N i) (part M j)) <= 79 * bpow radix2 (k - 53)) /\
    volume m' = Ok v /\ close_to v (ring_volume N M (val rM) (val rm)) (24 * t * (t + 31) * bpow radix2 (3 * k - 53)) /\
    (24 * t * (t + 31) * bpow radix2 (3 * k - 53) < ring_volume N M (val rM) (val rm) -> is_oriented_outside m' = Ok true).
Proof.
  intros HR Hr N M t. destruct (torus_is rM rm n m divides_f64 Rm) as [m' [E I]]. fold N in I. fold M in I.
  assert (2 <= N)%Z as HN by (unfold N; lia). assert (1 <= N <= 2 ^ 50)%Z as HN2 by (unfold N; lia). assert (2 <= M)%Z as HM by (unfold M; lia). assert (1 <= M <= 2 ^ 50)%Z as HM2 by (unfold M; lia).
  pose proof (torus_near64 TR G k Hk rM rm N M HR Hr HN2 HM2) as F.
  assert (len (torus_ts N M) = 2 * (4 * n + 2) * (2 * n + 6))%Z as LT by (rewrite torus_ts_len; unfold N, M; lia).
  assert (len (torus_ts N M) <= 2 ^ 50)%Z as LT2 by (rewrite LT; nia).
  assert (1 <= t) as T1 by (apply IZR_le; nia).
  assert (0 <= 45 * bpow radix2 (k - 53)) as E0 by (pose proof (bpow_ge_0 radix2 (k - 53)); lra). pose proof tiny_u as [T0 TU]. pose proof (bpow_gt_0 radix2 k) as K0. pose proof uu_pos as U.
  assert (Rabs (val rM) <= bpow radix2 k) as BR by apply HR. assert (Rabs (val rm) <= bpow radix2 k) as Br by apply Hr. pose proof (Rabs_pos (val rM)). pose proof (Rabs_pos (val rm)).
  assert (tiny * (Rabs (val rM) + Rabs (val rm)) <= 0.1 * bpow radix2 (k - 53)) as TR1. { rewrite unit_bound. replace (0.1 * (bpow radix2 k * uu)) with (0.05 * uu * (2 * bpow radix2 k)) by lra. apply Rmult_le_compat; lra. }
  assert (Rabs (msum (torus_vs (val rM) (val rm) N M) (torus_ts N M) - ring_volume N M (val rM) (val rm)) <= bpow radix2 (3 * k - 53)) as V1.
  { rewrite torus_volume0, torus_profile by lia. eapply Rle_trans; [apply torus_volume_near; lia|]. rewrite cube_bound. fold S3.
    pose proof (prod3_le _ _ _ _ BR Br Br) as Q1. pose proof (prod3_le _ _ _ _ Br Br Br) as Q2. fold S3 in Q1, Q2. rewrite Rmult_assoc in Q1. rewrite Rmult_assoc in Q2. rewrite <- (Rabs_mult (val rm)), (Rabs_pos_eq (val rm * val rm)) in Q1 by apply Rle_0_sqr. rewrite <- (Rabs_mult (val rm) (val rm)), (Rabs_pos_eq (val rm * val rm)) in Q2 by apply Rle_0_sqr.
    apply Rle_trans with (0.05 * uu * (2 * S3)); [|nra]. apply Rmult_le_compat; [lra| |lra|rewrite Rmult_plus_distr_r; lra]. apply Rmult_le_pos; [lra|apply Rle_0_sqr]. }
  assert (45 * bpow radix2 (k - 53) = 22.5 * bpow radix2 (k + 1 - 53)) as EQ. { replace (k + 1 - 53)%Z with (k - 53 + 1)%Z by lia. rewrite bpow_plus. change (bpow radix2 1) with 2. lra. }
  pose proof F as F'. rewrite EQ in F'.
  destruct (volume_near m' _ _ _ _ (k + 1) 22.5 ltac:(lia) ltac:(lra) I LT2 F') as (v & Ev & Cv). rewrite LT in Cv. fold t in Cv.
  assert (bpow radix2 (3 * (k + 1) - 53) = 8 * bpow radix2 (3 * k - 53)) as C8. { replace (3 * (k + 1) - 53)%Z with (3 * k - 53 + 3)%Z by lia. rewrite bpow_plus. change (bpow radix2 3) with 8. ring. }
  rewrite C8 in Cv. pose proof (bpow_gt_0 radix2 (3 * k - 53)) as C0.
  assert (3 * t * (t + 8 + 22.5) * (8 * bpow radix2 (3 * k - 53)) + bpow radix2 (3 * k - 53) <= 24 * t * (t + 31) * bpow radix2 (3 * k - 53)) as LL. { replace (24 * t * (t + 31) * bpow radix2 (3 * k - 53)) with (3 * t * (t + 8 + 22.5) * (8 * bpow radix2 (3 * k - 53)) + 12 * t * bpow radix2 (3 * k - 53)) by lra. nra. }
  eexists m', _, v. split; [exact E|]. split; [apply I|]. split; [apply I|]. split; [rewrite live_alive; exact LT|]. split; [|split; [exact Ev|split]].
  - intros i j Hi Hj. eapply (place (k + 1) _ _ _ _ (i * M + j) _ _ E0 F); [rewrite torus_at by assumption; apply torus_near; lia|lra].
  - exact (vol_place _ _ _ _ _ _ Cv V1 LL).
  - intros W. apply (oriented_near m' _ _ _ _ (k + 1) 22.5 ltac:(lia) ltac:(lra) I LT2 F'). rewrite LT, C8. fold t. apply Rabs_le_inv in V1. lra.
Qed.
End Solids.

(** ** Smooth solids *)
Lemma smooth64 (TR : Trig f64) k n m (h r rM rm : f64) : good_trig TR -> (-190 <= k <= 190)%Z -> (0 <= n <= 2 ^ 20)%Z -> reach m -> fits k h -> fits k r -> fits k rM -> fits k rm ->
  let N := IZR (2 + 4 * n) in let u := bpow radix2 (3 * k - 53) in
  (exists m' v, create_cylinder h r n m = Ok m' /\ volume m' = Ok v /\ let t := IZR (10 + 16 * n) in
    close_to v (PI * (val r * val r) * val h) (22 / (N * N) * (val r * val r * Rabs (val h)) + 3 * t * (t + 24) * u)) /\
  (exists m' v, create_sphere_uv r n m = Ok m' /\ volume m' = Ok v /\ let t := IZR (2 * (4 * n + 2) * (2 * n + 1)) in
    close_to v (4 / 3 * PI * (val r * val r * val r)) (75 / (N * N) * (Rabs (val r) * Rabs (val r) * Rabs (val r)) + 3 * t * (t + 39) * u)) /\
  (exists m' v, create_torus rM rm n m = Ok m' /\ volume m' = Ok v /\ let t := IZR (2 * (4 * n + 2) * (2 * n + 6)) in
    close_to v (2 * (PI * PI) * val rM * (val rm * val rm)) (710 / (N * N) * (Rabs (val rM) * (val rm * val rm)) + 24 * t * (t + 31) * u)).
Proof.
  intros G Hk Hn Rm Hh Hr HM Hm N u. split; [|split].
  - destruct (cylinder64 TR G k Hk n Hn m Rm h r Hh Hr) as (m' & a & v & E & _ & _ & _ & _ & _ & _ & V & C & _). exists m', v. split; [exact E|]. split; [exact V|].
    eapply vol_place; [exact C|apply prism_smooth; lia|]. fold N. fold u. right. ring.
  - destruct (sphere64 TR G k Hk n Hn m Rm r Hr) as (m' & a & v & E & _ & _ & _ & _ & _ & _ & V & C & _). exists m', v. split; [exact E|]. split; [exact V|].
    eapply vol_place; [exact C|apply globe_smooth; lia|]. fold N. fold u. right. ring.
  - destruct (torus64 TR G k Hk n Hn m Rm rM rm HM Hm) as (m' & a & v & E & _ & _ & _ & _ & V & C & _). exists m', v. split; [exact E|]. split; [exact V|].
    eapply vol_place; [exact C|apply ring_smooth; lia|]. fold N. fold u. right. ring.
Qed.
Lemma gon5 N : (6 <= N)%Z -> 5 <= gon N.
Proof.
  intros H. destruct (gon_near N ltac:(lia)) as [_ B]. assert (6 <= IZR N) as HN by (apply IZR_le; lia).
  assert (/ (IZR N * IZR N) <= / 36) by (apply Rinv_le_contravar; nra). pose proof pi_bounds. unfold Rdiv in B. lra.
Qed.
Lemma outwards64 (TR : Trig f64) k n m (h r rM rm : f64) : good_trig TR -> (-190 <= k <= 190)%Z -> (1 <= n <= 1000)%Z -> reach m -> fits k h -> fits k r -> fits k rM -> fits k rm ->
  bpow radix2 (k - 1) <= val h -> bpow radix2 (k - 1) <= val r -> bpow radix2 (k - 1) <= val rM -> bpow radix2 (k - 1) <= val rm ->
  (exists m', create_cylinder h r n m = Ok m' /\ is_oriented_outside m' = Ok true) /\ (exists m', create_sphere_uv r n m = Ok m' /\ is_oriented_outside m' = Ok true) /\
  (exists m', create_torus rM rm n m = Ok m' /\ is_oriented_outside m' = Ok true).
Proof.
  intros G Hk Hn Rm Hh Hr HM Hm Lh Lr LM Lm. assert (0 <= n <= 2 ^ 20)%Z as Hn2 by lia.
  assert (bpow radix2 (k - 1) = bpow radix2 k / 2) as K1. { change (k - 1)%Z with (k + -1)%Z. rewrite bpow_plus. reflexivity. } rewrite K1 in *.
  pose proof (bpow_gt_0 radix2 k) as K0. assert (forall x y z, bpow radix2 k / 2 <= x -> bpow radix2 k / 2 <= y -> bpow radix2 k / 2 <= z -> bpow radix2 k * bpow radix2 k * bpow radix2 k / 8 <= x * y * z) as P3.
  { intros x y z Hx Hy Hz. set (b := bpow radix2 k) in *. replace (b * b * b / 8) with (b / 2 * (b / 2) * (b / 2)) by field. apply Rmult_le_compat; [apply Rmult_le_pos; lra|lra|apply Rmult_le_compat; lra|lra]. }
  assert (forall t, 1 <= t -> t <= 17000000 -> 3 * t * (t + 39) * bpow radix2 (3 * k - 53) <= bpow radix2 k * bpow radix2 k * bpow radix2 k * 0.1) as TB.
  { intros t H1 H2. rewrite cube_bound, uu_val. set (s := bpow radix2 k * bpow radix2 k * bpow radix2 k). assert (0 < s) by (unfold s; repeat apply Rmult_lt_0_compat; exact K0).
    replace (3 * t * (t + 39) * (s * / 9007199254740992)) with (s * (3 * t * (t + 39) * / 9007199254740992)) by ring. apply Rmult_le_compat_l; [lra|].
    assert (t * (t + 39) <= 17000000 * 17000039) by (apply Rmult_le_compat; lra). lra. }
  set (s := bpow radix2 k * bpow radix2 k * bpow radix2 k) in *. assert (0 < s) as S0 by (unfold s; repeat apply Rmult_lt_0_compat; exact K0).
  split; [|split].
  - destruct (cylinder64 TR G k Hk n Hn2 m Rm h r Hh Hr) as (m' & a & v & E & _ & _ & _ & _ & _ & _ & _ & _ & O). exists m'. split; [exact E|]. apply O.
    set (t := IZR (10 + 16 * n)). assert (1 <= t) as T1 by (apply IZR_le; lia). assert (t <= 17000000) as T2 by (apply IZR_le; lia). pose proof (TB t T1 T2) as W.
    pose proof (bpow_gt_0 radix2 (3 * k - 53)) as C0. assert (3 * t * (t + 24) * bpow radix2 (3 * k - 53) <= 3 * t * (t + 39) * bpow radix2 (3 * k - 53)) by (apply Rmult_le_compat_r; nra).
    unfold prism_volume. pose proof (gon5 (2 + 4 * n) ltac:(lia)) as GN. pose proof (P3 _ _ _ Lr Lr Lh) as Q.
    replace (gon (2 + 4 * n) / 2 * (val r * val r) * val h) with (gon (2 + 4 * n) / 2 * (val r * val r * val h)) by ring. set (q := val r * val r * val h) in *. nra.
  - destruct (sphere64 TR G k Hk n Hn2 m Rm r Hr) as (m' & a & v & E & _ & _ & _ & _ & _ & _ & _ & _ & O). exists m'. split; [exact E|]. apply O.
    set (t := IZR (2 * (4 * n + 2) * (2 * n + 1))). assert (1 <= t) as T1 by (apply IZR_le; nia). assert (t <= 17000000) as T2 by (apply IZR_le; nia). pose proof (TB t T1 T2) as W.
    unfold globe_volume. pose proof (gon5 (2 + 4 * n) ltac:(lia)) as GN. pose proof (P3 _ _ _ Lr Lr Lr) as Q.
    assert (0 <= cos (PI / IZR (2 + 2 * n))) as CC. { assert (4 <= IZR (2 + 2 * n)) as H4 by (apply IZR_le; lia). pose proof pi_bounds. assert (/ IZR (2 + 2 * n) <= / 4) by (apply Rinv_le_contravar; lra). assert (0 < / IZR (2 + 2 * n)) by (apply Rinv_0_lt_compat; lra).
      apply cos_ge_0; unfold Rdiv; nra. }
    set (c := cos (PI / IZR (2 + 2 * n))) in *. set (q := val r * val r * val r) in *. assert (5 * 1 <= gon (2 + 4 * n) * (1 + c)) as GC by (apply Rmult_le_compat; lra). nra.
  - destruct (torus64 TR G k Hk n Hn2 m Rm rM rm HM Hm) as (m' & a & v & E & _ & _ & _ & _ & _ & _ & O). exists m'. split; [exact E|]. apply O.
    set (t := IZR (2 * (4 * n + 2) * (2 * n + 6))). assert (1 <= t) as T1 by (apply IZR_le; nia). assert (t <= 17000000) as T2 by (apply IZR_le; nia). pose proof (TB t T1 T2) as W.
    pose proof (bpow_gt_0 radix2 (3 * k - 53)) as C0. assert (24 * t * (t + 31) * bpow radix2 (3 * k - 53) <= 8 * (3 * t * (t + 39) * bpow radix2 (3 * k - 53))) as W2. { replace (8 * (3 * t * (t + 39) * bpow radix2 (3 * k - 53))) with (24 * t * (t + 39) * bpow radix2 (3 * k - 53)) by ring. apply Rmult_le_compat_r; nra. }
    unfold ring_volume. pose proof (gon5 (2 + 4 * n) ltac:(lia)) as GN. pose proof (gon5 (6 + 2 * n) ltac:(lia)) as GM. pose proof (P3 _ _ _ LM Lm Lm) as Q.
    replace (gon (2 + 4 * n) * gon (6 + 2 * n) / 2 * val rM * (val rm * val rm)) with (gon (2 + 4 * n) * gon (6 + 2 * n) / 2 * (val rM * val rm * val rm)) by ring.
    assert (5 * 5 <= gon (2 + 4 * n) * gon (6 + 2 * n)) as GG by (apply Rmult_le_compat; lra). set (g := gon (2 + 4 * n) * gon (6 + 2 * n)) in *. set (q := val rM * val rm * val rm) in *. clearbody g q s. nra.
Qed.

(** ** Box, tetrahedron and octahedron *)
Lemma abs_near a b e : Rabs (a - b) <= e -> Rabs (Rabs a - Rabs b) <= e.
Proof. intros H. eapply Rle_trans; [apply Rabs_triang_inv2|exact H]. Qed.
Lemma F2_in {A B} (P : A -> B -> Prop) l l' a : Forall2 P l l' -> In a l -> exists b, In b l' /\ P a b.
Proof. induction 1 as [|x y l l' H _ IH]; intros []; [subst; exists y; split; [left; reflexivity|exact H]|]. destruct IH as (b & ? & ?); [assumption|]. exists b. split; [right|]; assumption. Qed.
Section Flat.
Variable k : Z.
Hypothesis Hk : (-190 <= k <= 190)%Z.
Lemma box_near64 (x y z : f64) : fits k x -> fits k y -> fits k z -> Forall2 (pnear k (1 * bpow radix2 (k - 53))) (box_vs (dv x 2) (dv y 2) (dv z 2)) (box_vs (val x / 2) (val y / 2) (val z / 2)).
Proof.
  intros Hx Hy Hz. assert (forall w, fits k w -> aps k (dv w 2) (val w / 2) 1 0 /\ aps k (b64_opp (dv w 2)) (- (val w / 2)) 1 0 /\ Rabs (val w / 2) <= bpow radix2 (k + 0) /\ Rabs (- (val w / 2)) <= bpow radix2 (k + 0)) as A.
  { intros w Hw. pose proof (half_len k Hk w Hw) as H. rewrite dv_R in H by lia. split; [exact H|]. split; [apply opp_ap; exact H|]. rewrite Rabs_Ropp, Z.add_0_r. destruct Hw as [_ B].
    unfold Rdiv. rewrite Rabs_mult, (Rabs_pos_eq (/ 2)) by lra. pose proof (Rabs_pos (val w)). split; lra. }
  destruct (A x Hx) as (X & X' & BX & BX'). destruct (A y Hy) as (Y & Y' & BY & BY'). destruct (A z Hz) as (Z & Z' & BZ & BZ').
  replace k with (k + 0)%Z at 1 by lia. unfold box_vs. repeat (constructor; [eapply (mk_near k 0 1); try eassumption; lra|]). constructor.
Qed.
Lemma box64 (x y z : f64) m : reach m -> fits k x -> fits k y -> fits k z -> exists m' a v, create_box x y z m = Ok m' /\ reach m' /\ shows m' a /\ len (averts a) = 8%Z /\
  (forall p, In p (averts a) -> fits_pt k p /\ Rabs (Rabs (val (px p)) - Rabs (val x) / 2) <= bpow radix2 (k - 53) /\ Rabs (Rabs (val (py p)) - Rabs (val y) / 2) <= bpow radix2 (k - 53) /\ Rabs (Rabs (val (pz p)) - Rabs (val z) / 2) <= bpow radix2 (k - 53)) /\
  volume m' = Ok v /\ close_to v (val x * val y * val z) (756 * bpow radix2 (3 * k - 53)) /\
  (756 * bpow radix2 (3 * k - 53) < val x * val y * val z -> is_oriented_outside m' = Ok true).
Proof.
  intros Rm Hx Hy Hz. destruct (box_is x y z m divides_f64 Rm) as (m' & E & I). pose proof (box_near64 x y z Hx Hy Hz) as F.
  assert (len box_ts <= 2 ^ 50)%Z as L by (vm_compute; discriminate).
  destruct (volume_near m' _ _ _ _ k 1 ltac:(lia) ltac:(lra) I L F) as (v & Ev & Cv).
  assert (msum (box_vs (val x / 2) (val y / 2) (val z / 2)) box_ts = val x * val y * val z) as V by apply box_volume. rewrite V in Cv.
  replace (3 * IZR (len box_ts) * (IZR (len box_ts) + 8 + 1)) with 756 in Cv by (change (IZR (len box_ts)) with 12; lra).
  eexists m', _, v. split; [exact E|]. split; [apply I|]. split; [apply I|]. split; [reflexivity|]. split; [|split; [exact Ev|split; [exact Cv|]]].
  - cbn [averts]. intros p Hp. rewrite Rmult_1_l in F.
    assert (Forall (fun P => Rabs (px P) = Rabs (val x) / 2 /\ Rabs (py P) = Rabs (val y) / 2 /\ Rabs (pz P) = Rabs (val z) / 2) (box_vs (val x / 2) (val y / 2) (val z / 2))) as AB.
    { assert (forall w, Rabs (w / 2) = Rabs w / 2) as D by (intros; unfold Rdiv; rewrite Rabs_mult, (Rabs_pos_eq (/ 2)) by lra; reflexivity).
      unfold box_vs. repeat (constructor; [cbn [px py pz nneg RNum]; rewrite ?Rabs_Ropp, !D; auto|]). constructor. }
    destruct (F2_in _ _ _ p F Hp) as (Q & HQ & F1 & _ & (_ & D1) & (_ & D2) & (_ & D3)). apply (proj1 (Forall_forall _ _) AB) in HQ. destruct HQ as (A1 & A2 & A3).
    split; [exact F1|]. rewrite <- A1, <- A2, <- A3. split; [|split]; apply abs_near; assumption.
  - intros W. apply (oriented_near m' _ _ _ _ k 1 ltac:(lia) ltac:(lra) I L F). rewrite V. change (IZR (len box_ts)) with 12. lra.
Qed.
Lemma tetra64 (d : f64) m : reach m -> fits k d -> exists m' a v, create_tetrahedron d m = Ok m' /\ reach m' /\ shows m' a /\ len (live a) = 4%Z /\
  volume m' = Ok v /\ close_to v (8 / 3 * (val d * val d * val d)) (144 * bpow radix2 (3 * k - 53)) /\
  (144 * bpow radix2 (3 * k - 53) < 8 / 3 * (val d * val d * val d) -> is_oriented_outside m' = Ok true).
Proof.
  intros Rm Hd. destruct (tetra_is d m Rm) as (m' & E & I). pose proof (aps_fits k d Hd) as A. change (V64 d) with (val d) in A. pose proof (opp_ap _ _ _ _ A) as A'.
  assert (Rabs (val d) <= bpow radix2 (k + 0)) as B by (rewrite Z.add_0_r; apply Hd). assert (Rabs (- val d) <= bpow radix2 (k + 0)) as B' by (rewrite Rabs_Ropp; exact B).
  assert (Forall2 (pnear k (0 * bpow radix2 (k - 53))) (tetra_vs d) (tetra_vs (val d))) as F.
  { replace k with (k + 0)%Z at 1 by lia. unfold tetra_vs. repeat (constructor; [eapply (mk_near k 0 0); try eassumption; lra|]). constructor. }
  assert (len tetra_ts <= 2 ^ 50)%Z as L by (vm_compute; discriminate).
  destruct (volume_near m' _ _ _ _ k 0 ltac:(lia) ltac:(lra) I L F) as (v & Ev & Cv). assert (msum (tetra_vs (val d)) tetra_ts = 8 / 3 * (val d * val d * val d)) as V by apply tetra_volume. rewrite V in Cv.
  replace (3 * IZR (len tetra_ts) * (IZR (len tetra_ts) + 8 + 0)) with 144 in Cv by (change (IZR (len tetra_ts)) with 4; lra).
  eexists m', _, v. split; [exact E|]. split; [apply I|]. split; [apply I|]. split; [rewrite live_alive; reflexivity|]. split; [exact Ev|]. split; [exact Cv|].
  intros W. apply (oriented_near m' _ _ _ _ k 0 ltac:(lia) ltac:(lra) I L F). rewrite V. change (IZR (len tetra_ts)) with 4. lra.
Qed.
Lemma octa64 (d : f64) m : reach m -> fits k d -> exists m' a v, create_octahedron d m = Ok m' /\ reach m' /\ shows m' a /\ len (live a) = 8%Z /\
  volume m' = Ok v /\ close_to v (4 / 3 * (val d * val d * val d)) (384 * bpow radix2 (3 * k - 53)) /\
  (384 * bpow radix2 (3 * k - 53) < 4 / 3 * (val d * val d * val d) -> is_oriented_outside m' = Ok true).
Proof.
  intros Rm Hd. destruct (octa_is d m Rm) as (m' & E & I). pose proof (aps_fits k d Hd) as A. change (V64 d) with (val d) in A. pose proof (opp_ap _ _ _ _ A) as A'.
  assert (Rabs (val d) <= bpow radix2 (k + 0)) as B by (rewrite Z.add_0_r; apply Hd). assert (Rabs (- val d) <= bpow radix2 (k + 0)) as B' by (rewrite Rabs_Ropp; exact B).
  pose proof (zero_e k) as Z0. assert (Rabs 0 <= bpow radix2 (k + 0)) as B0 by (rewrite Rabs_R0; apply bpow_ge_0).
  assert (Forall2 (pnear k (0 * bpow radix2 (k - 53))) (octa_vs d) (octa_vs (val d))) as F.
  { replace k with (k + 0)%Z at 1 by lia. unfold octa_vs. repeat (constructor; [eapply (mk_near k 0 0); try eassumption; lra|]). constructor. }
  assert (len octa_ts <= 2 ^ 50)%Z as L by (vm_compute; discriminate).
  destruct (volume_near m' _ _ _ _ k 0 ltac:(lia) ltac:(lra) I L F) as (v & Ev & Cv). assert (msum (octa_vs (val d)) octa_ts = 4 / 3 * (val d * val d * val d)) as V by apply octa_volume. rewrite V in Cv.
  replace (3 * IZR (len octa_ts) * (IZR (len octa_ts) + 8 + 0)) with 384 in Cv by (change (IZR (len octa_ts)) with 8; lra).
  eexists m', _, v. split; [exact E|]. split; [apply I|]. split; [apply I|]. split; [rewrite live_alive; reflexivity|]. split; [exact Ev|]. split; [exact Cv|].
  intros W. apply (oriented_near m' _ _ _ _ k 0 ltac:(lia) ltac:(lra) I L F). rewrite V. change (IZR (len octa_ts)) with 8. lra.
Qed.
End Flat.
Lemma solids_case : good_trig correct_trig /\ reach (@mesh_new f64) /\ fits 2 (f64_ofZ 3) /\ fits 2 (f64_ofZ 4) /\ bpow radix2 1 <= val (f64_ofZ 3) /\ bpow radix2 1 <= val (f64_ofZ 4) /\
  756 * bpow radix2 (3 * 2 - 53) < val (f64_ofZ 3) * val (f64_ofZ 4) * val (f64_ofZ 4) /\
  384 * bpow radix2 (3 * 2 - 53) < 4 / 3 * (val (f64_ofZ 3) * val (f64_ofZ 3) * val (f64_ofZ 3)).
Proof.
  destruct (ofZ_exact 3 ltac:(lia)) as [E3 F3]. destruct (ofZ_exact 4 ltac:(lia)) as [E4 F4].
  assert (bpow radix2 1 = 2) as B1 by reflexivity. assert (bpow radix2 2 = 4) as B2 by reflexivity.
  assert (bpow radix2 (3 * 2 - 53) <= 1 / 1024) as B. { eapply Rle_trans; [apply (bpow_le radix2 _ (-10)); lia|]. change (bpow radix2 (-10)) with (/ 1024). lra. }
  unfold fits, fin, val. fold (V64 (f64_ofZ 3)). fold (V64 (f64_ofZ 4)). rewrite E3, E4, B1, B2, !Rabs_pos_eq by lra.
  split; [apply degrees_case|]. split; [constructor|]. split; [split; [exact F3|lra]|]. split; [split; [exact F4|lra]|]. repeat split; lra.
Qed.
