(** Surface areas of the round solids built in doubles. *)
From Coq Require Import ZArith List Bool Lia Reals Lra Psatz.
From Flocq Require Import Core.
From Verif Require Import Base Num MGeometry MKernel MMesh MMeshRun MMeasure MUtil MMeshFactory MTransform MStl MF64 SMesh SReach SGeom SMeasure SMeshFac SRound SArea SErr SErrN SErrD SErrM
  LBase LMesh LReach LGeom LMeasure LMeasure2 LMeshFac LMeshFac2 LMeshFac3 LMeshFac4 LMeshFac5 LMeshFac7 LRound LRound2 LRound3 LRound4 LErr1 LErr2 LErr3 LErr4 LErr5 LErr6 LErr7 LErr8 LErr9 LErr10 LErr11 LErrT LErrD LErrR LErrR2 LErrF LErrM LArea.
Import ListNotations.
Open Scope R_scope.

Lemma asum_near B e vs Vs ts : 0 <= e -> (forall i, rnear B e (at_ vs i) (at_ Vs i)) -> Rabs (asum vs ts - asum Vs ts) <= IZR (len ts) * (14 * (B * e)).
Proof.
  intros He H. induction ts as [|[[x y] z] ts IH]. { unfold asum. cbn. rewrite Rminus_0_r, Rabs_R0. lra. }
  change ((x, y, z) :: ts) with ([(x, y, z)] ++ ts). rewrite !asum_app, !asum_1, len_app, plus_IZR. change (IZR (len [(x, y, z)])) with 1.
  pose proof (area_near B e _ _ _ _ _ _ He (H x) (H y) (H z)) as A. apply Rabs_le_inv in A, IH. apply Rabs_le. lra.
Qed.
Lemma total_asum vs ts c : total_area (mkA vs (alive ts) c) = asum vs ts.
Proof. unfold total_area. rewrite faces_is. reflexivity. Qed.
Lemma surface_near (m : Mesh f64) vs Vs ts c K e : (-200 <= K <= 200)%Z -> 0 <= e -> is m vs ts c -> (len ts <= 2 ^ 50)%Z -> Forall2 (pnear K e) vs Vs ->
  exists s, surface m = Ok s /\ close_to s (asum Vs ts) (area_err (IZR (len ts)) K e).
Proof.
  intros HK He [Rm S] HL H.
  destruct (reach_surface_err m _ K Rm S HK) as (v & E & F & D).
  { cbn [averts]. clear -H. induction H as [|p P vs Vs Hp _ IH]; constructor; [apply Hp|exact IH]. }
  { rewrite live_alive. exact HL. }
  exists v. split; [exact E|]. split; [exact F|]. cbn zeta in D. rewrite live_alive in D. rewrite val_mesh_is, total_asum in D.
  pose proof (asum_near (bpow radix2 K) _ (map val_pt vs) Vs ts He (fun i => rnear_at K _ vs Vs i He H)) as M. unfold area_err.
  apply Rabs_le_inv in D, M. apply Rabs_le. lra.
Qed.
Lemma area_place v a t e e' s : close_to v a e -> a <= s -> s - a <= t -> e + t <= e' -> close_to v s e'.
Proof. intros C A B H. eapply vol_place; [exact C| |exact H]. apply Rabs_le. lra. Qed.
Lemma area_slack n k K E c x : 1 <= n -> (k <= K)%Z -> 0 <= x <= 2 * (bpow radix2 k * bpow radix2 k) -> 0 <= c <= 2 * tiny -> area_err n K (E * bpow radix2 (k - 53)) + c * x <= area_err n K ((E + 1) * bpow radix2 (k - 53)).
Proof.
  intros Hn HK Hx Hc. unfold area_err. pose proof tiny_u as [T0 TU]. pose proof (bpow_gt_0 radix2 k) as K0. pose proof uu_pos as U. rewrite (unit_bound k). assert (bpow radix2 k <= bpow radix2 K) as BK by (apply bpow_le; exact HK).
  set (b := bpow radix2 k) in *. set (B := bpow radix2 K) in *. assert (c * x <= 0.1 * uu * (2 * (b * b))) as P by (apply Rmult_le_compat; lra).
  assert (b * b <= B * b) by (apply Rmult_le_compat_r; lra). assert (0 <= B * b * uu) as Z by (repeat apply Rmult_le_pos; lra). assert (1 * (B * b * uu) <= n * (B * b * uu)) as W by (apply Rmult_le_compat_r; lra).
  replace (14 * n * (B * ((E + 1) * (b * uu)))) with (14 * n * (B * (E * (b * uu))) + 14 * (n * (B * b * uu))) by ring.
  assert (b * b * uu <= B * b * uu) by (apply Rmult_le_compat_r; [apply Rlt_le; exact U|assumption]). clear - P W H0 Z. lra.
Qed.
Lemma okR (a b : R) : Ok a = Ok b -> a = b. Proof. intros H. injection H as H. exact H. Qed.
Lemma areas64 (TR : Trig f64) k n m (h r rM rm : f64) : good_trig TR -> (-190 <= k <= 190)%Z -> (0 <= n <= 2 ^ 20)%Z -> reach m -> fits k h -> fits k r -> fits k rM -> fits k rm ->
  0 <= val rm <= val rM -> let N := IZR (2 + 4 * n) in let u := bpow radix2 (k - 53) in
  (exists m' s, create_cylinder h r n m = Ok m' /\ surface m' = Ok s /\ let x := val r * val r + Rabs (val r * val h) in
    close_to s (2 * PI * x) (44 / (N * N) * x + area_err (IZR (10 + 16 * n)) k (16 * u))) /\
  (exists m' s, create_sphere_uv r n m = Ok m' /\ surface m' = Ok s /\ let x := val r * val r in
    close_to s (4 * PI * x) (154 / (N * N) * x + area_err (IZR (2 * (4 * n + 2) * (2 * n + 1))) k (31 * u))) /\
  (exists m' s, create_torus rM rm n m = Ok m' /\ surface m' = Ok s /\ let x := val rM * val rm in
    close_to s (4 * (PI * PI) * x) (564 / (N * N) * x + area_err (IZR (2 * (4 * n + 2) * (2 * n + 6))) (k + 1) (46 * u))).
Proof.
  intros G Hk Hn Rm Hh Hr HM Hm Hrr N u. assert (0 <= u) as U0 by apply bpow_ge_0. pose proof tiny_u as [T0 TU].
  assert (forall x y, fits k x -> fits k y -> Rabs (val x * val y) <= bpow radix2 k * bpow radix2 k) as PR.
  { intros x y Hx Hy. rewrite Rabs_mult. apply Rmult_le_compat; try apply Rabs_pos; [apply Hx|apply Hy]. }
  split; [|split].
  - destruct (cyl_is h r n m divides_f64 Rm ltac:(lia)) as [m' [E I]]. set (NN := (2 + 4 * n)%Z) in *. assert (1 <= NN <= 2 ^ 50)%Z as HN2 by (unfold NN; lia).
    pose proof (cyl_near64 TR G k Hk h r NN Hh Hr HN2) as F. rewrite (dv_R (val h)) in F by lia.
    assert (len (cyl_ts NN) = 10 + 16 * n)%Z as LT by (rewrite cyl_ts_len by lia; unfold NN; lia).
    destruct (surface_near m' _ _ _ _ k (15 * u) ltac:(lia) ltac:(lra) I ltac:(rewrite LT; lia) F) as (s & Es & Cs). rewrite LT in Cs.
    exists m', s. split; [exact E|]. split; [exact Es|]. intros x.
    destruct (cylinder_area (val h) (val r) n mesh_new (R_new) ltac:(lia)) as (m2 & s2 & E2 & S2 & _ & A & B). fold NN in B. fold N in B. fold x in A, B.
    destruct (cyl_is (val h) (val r) n mesh_new divides_R R_new ltac:(lia)) as [m3 [E3 I3]]. rewrite E3 in E2. injection E2 as <-. rewrite (is_surface _ _ _ _ I3) in S2. apply okR in S2. rewrite (dv_R (val h)) in S2 by lia. fold NN in S2.
    change (asum (cyl_vs (val r) (val h / IZR 2) NN) (cyl_ts NN) = s2) in S2. rewrite S2 in Cs.
    assert (0 <= x <= 2 * (bpow radix2 k * bpow radix2 k)) as X. { unfold x. pose proof (Rle_0_sqr (val r)) as Q. unfold Rsqr in Q. pose proof (Rabs_pos (val r * val h)). pose proof (PR r r Hr Hr) as Q2. rewrite Rabs_pos_eq in Q2 by exact Q. pose proof (PR r h Hr Hh). lra. }
    eapply area_place; [exact Cs|exact A|exact B|]. pose proof (area_slack (IZR (10 + 16 * n)) k k 15 tiny x ltac:(apply IZR_le; lia) ltac:(lia) X ltac:(lra)) as SL. fold u in SL. replace (15 + 1) with 16 in SL by ring. lra.
  - destruct (uv_is r n m divides_f64 Rm) as [m' [E I]]. set (NN := (2 + 4 * n)%Z) in *. set (M := (2 + 2 * n)%Z) in *. assert (1 <= NN <= 2 ^ 50)%Z as HN2 by (unfold NN; lia). assert (1 <= M <= 2 ^ 50)%Z as HM2 by (unfold M; lia).
    replace (1 + 2 * n)%Z with (M - 1)%Z in I by (unfold M; lia).
    pose proof (uv_near64 TR G k Hk r NN M Hr HN2 HM2) as F.
    assert (len (uv_ts NN (M - 1)) = 2 * (4 * n + 2) * (2 * n + 1))%Z as LT by (rewrite uv_ts_len; unfold NN, M; lia).
    destruct (surface_near m' _ _ _ _ k (30 * u) ltac:(lia) ltac:(lra) I ltac:(rewrite LT; nia) F) as (s & Es & Cs). rewrite LT in Cs.
    exists m', s. split; [exact E|]. split; [exact Es|]. intros x.
    destruct (sphere_area (val r) n mesh_new (R_new) ltac:(lia)) as (m2 & s2 & E2 & S2 & A & B). fold NN in B. fold N in B. fold x in A, B.
    destruct (uv_is (val r) n mesh_new divides_R R_new) as [m3 [E3 I3]]. rewrite E3 in E2. injection E2 as <-. rewrite (is_surface _ _ _ _ I3) in S2. apply okR in S2. fold NN in S2. fold M in S2. replace (1 + 2 * n)%Z with (M - 1)%Z in S2 by (unfold M; lia).
    change (asum (uv_vs (val r) NN M) (uv_ts NN (M - 1)) = s2) in S2. rewrite S2 in Cs.
    assert (0 <= x <= 2 * (bpow radix2 k * bpow radix2 k)) as X. { unfold x. pose proof (Rle_0_sqr (val r)) as Q. unfold Rsqr in Q. pose proof (PR r r Hr Hr) as Q2. rewrite Rabs_pos_eq in Q2 by exact Q. lra. }
    eapply area_place; [exact Cs|exact A|exact B|]. pose proof (area_slack (IZR (2 * (4 * n + 2) * (2 * n + 1))) k k 30 tiny x ltac:(apply IZR_le; nia) ltac:(lia) X ltac:(lra)) as SL. fold u in SL. replace (30 + 1) with 31 in SL by ring. lra.
  - destruct (torus_is rM rm n m divides_f64 Rm) as [m' [E I]]. set (NN := (2 + 4 * n)%Z) in *. set (M := (6 + 2 * n)%Z) in *. assert (1 <= NN <= 2 ^ 50)%Z as HN2 by (unfold NN; lia). assert (1 <= M <= 2 ^ 50)%Z as HM2 by (unfold M; lia).
    pose proof (torus_near64 TR G k Hk rM rm NN M HM Hm HN2 HM2) as F.
    assert (len (torus_ts NN M) = 2 * (4 * n + 2) * (2 * n + 6))%Z as LT by (rewrite torus_ts_len; unfold NN, M; lia).
    destruct (surface_near m' _ _ _ _ (k + 1) (45 * u) ltac:(lia) ltac:(lra) I ltac:(rewrite LT; nia) F) as (s & Es & Cs). rewrite LT in Cs.
    exists m', s. split; [exact E|]. split; [exact Es|]. intros x.
    destruct (torus_area (val rM) (val rm) n mesh_new (R_new) ltac:(lia) Hrr) as (m2 & s2 & E2 & S2 & A & B). fold NN in B. fold N in B. fold x in A, B.
    destruct (torus_is (val rM) (val rm) n mesh_new divides_R R_new) as [m3 [E3 I3]]. rewrite E3 in E2. injection E2 as <-. rewrite (is_surface _ _ _ _ I3) in S2. apply okR in S2. fold NN in S2. fold M in S2.
    change (asum (torus_vs (val rM) (val rm) NN M) (torus_ts NN M) = s2) in S2. rewrite S2 in Cs.
    assert (0 <= x <= 2 * (bpow radix2 k * bpow radix2 k)) as X. { unfold x. assert (0 <= val rM * val rm) as Q by (apply Rmult_le_pos; lra). pose proof (PR rM rm HM Hm) as Q2. rewrite Rabs_pos_eq in Q2 by exact Q. lra. }
    eapply area_place; [exact Cs|exact A|exact B|]. pose proof (area_slack (IZR (2 * (4 * n + 2) * (2 * n + 6))) k (k + 1) 45 (2 * tiny) x ltac:(apply IZR_le; nia) ltac:(lia) X ltac:(lra)) as SL. fold u in SL. replace (45 + 1) with 46 in SL by ring. lra.
Qed.
(** A ring of radii 4 and 3 and a cylinder of those sizes meet the hypotheses. *)
Lemma areas_case : good_trig correct_trig /\ reach (@mesh_new f64) /\ fits 2 (f64_ofZ 3) /\ fits 2 (f64_ofZ 4) /\ 0 <= val (f64_ofZ 3) <= val (f64_ofZ 4).
Proof.
  destruct solids_case as (G & R & F3 & F4 & B3 & B4 & _). split; [exact G|]. split; [exact R|]. split; [exact F3|]. split; [exact F4|].
  pose proof (bpow_gt_0 radix2 1). split; [lra|]. destruct (LF64.ofZ_ok 3 ltac:(lia)) as [E3 _]. destruct (LF64.ofZ_ok 4 ltac:(lia)) as [E4 _]. change (LF64.V64 (f64_ofZ 3) <= LF64.V64 (f64_ofZ 4)). rewrite E3, E4. lra.
Qed.
