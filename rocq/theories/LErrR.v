(** Round solids in doubles. *)
From Coq Require Import ZArith List Bool Reals Lra Lia Psatz.
From Flocq Require Import Core Relative IEEE754.Binary IEEE754.Bits IEEE754.BinarySingleNaN.
From Verif Require Import Base Num MGeometry MKernel MMesh MMeshRun MMeasure MUtil MMeshFactory MTransform MStl MF64 SMesh SReach SGeom SMeasure SMeshFac SRound SErr SErrN SErrT SErrD
  LBase LMesh LReach LGeom LMeasure LMeasure2 LMeshFac LMeshFac2 LMeshFac3 LMeshFac4 LMeshFac5 LMeshFac7 LPi LRound LRound2 LRound3 LRound4 LF64 LF64Arith LErr1 LErr2 LF64Ord LErr3 LErr4 LErr5 LErr6 LErrEx LErrT LErrD.
Import ListNotations.
Open Scope R_scope.

(** ** The angles *)
Lemma pi64_ff : B2FF 53 1024 (pi_lit : f64) = F754_finite false 7074237752028440 (-51).
Proof. vm_compute. reflexivity. Qed.
Lemma pi64 : ap (pi_lit : f64) pi_lit (1.2 * uu) (bpow radix2 2).
Proof.
  assert (V64 (pi_lit : f64) = 7074237752028440 * / 2251799813685248) as E.
  { change (Binary.B2R 53 1024 (pi_lit : f64) = 7074237752028440 * / 2251799813685248). rewrite <- FF2R_B2FF, pi64_ff. reflexivity. }
  split; [|rewrite E].
  - change (Binary.is_finite 53 1024 (pi_lit : f64) = true). rewrite <- Binary.is_finite_B2FF, pi64_ff. reflexivity.
  - rewrite uu_val. change (bpow radix2 2) with 4. assert (@pi_lit R _ = 314159265358979323846264338 / 100000000000000000000000000) as -> by reflexivity. split; apply Rabs_le; lra.
Qed.
Lemma pi_R4 : Rabs (@pi_lit R _) <= 3.2.
Proof. assert (@pi_lit R _ = 314159265358979323846264338 / 100000000000000000000000000) as -> by reflexivity. apply Rabs_le; lra. Qed.
Lemma quo_e i n : (0 <= i <= n)%Z -> (1 <= n <= 2 ^ 50)%Z -> ap (dv (nofZ i : f64) n) (dv (IZR i) n) (/ 2 * uu) 1.
Proof.
  intros Hi Hn. change (dv (nofZ i : f64) n) with (b64_div mode_NE (f64_ofZ i) (f64_ofZ n)). rewrite dv_R by lia.
  destruct (ofZ_exact i ltac:(lia)) as [Ei Fi]. destruct (ofZ_exact n ltac:(lia)) as [En Fn]. assert (0 <= IZR i) as I0 by (apply IZR_le; lia). assert (IZR i <= IZR n) as I1 by (apply IZR_le; lia). assert (1 <= IZR n) as N1 by (apply IZR_le; lia).
  assert (Rabs (IZR i / IZR n) <= bpow radix2 0) as B. { change (bpow radix2 0) with 1. assert (0 < / IZR n) by (apply Rinv_0_lt_compat; lra). apply Rabs_le. unfold Rdiv. assert (IZR n * / IZR n = 1) by (field; lra). split; nra. }
  destruct (div_e (f64_ofZ i) (f64_ofZ n) (bpow radix2 0) Fi) as [E F]; [rewrite En; lra|rewrite Ei, En; exact B|apply bpow_le; lia|].
  rewrite Ei, En in E. split; [exact F|]. rewrite E. split.
  - eapply Rle_trans; [apply (round64_err _ 0 ltac:(lia) B)|]. change (0 - 54)%Z with (-53 + -1)%Z. rewrite bpow_plus. fold uu. change (bpow radix2 (-1)) with (/ 2). lra.
  - change 1 with (bpow radix2 0). apply round64_bound; [apply fmt_bpow; lia|exact B].
Qed.
Lemma angle64 i n : (0 <= i <= n)%Z -> (1 <= n <= 2 ^ 50)%Z -> ap (angle i n : f64) (angle i n) (13 * uu) (bpow radix2 3).
Proof.
  intros Hi Hn. pose proof (quo_e i n Hi Hn) as Q. pose proof uu_pos as U.
  assert (ap (b64_mult mode_NE (dv (nofZ i : f64) n) n2) (dv (IZR i) n * 2) (2 * uu) (bpow radix2 1)) as D.
  { eapply ap_weak; [apply (ap_mul _ _ _ _ _ _ _ _ 2 1 Q two_f); [rewrite Rabs_pos_eq; lra|change (bpow radix2 1) with 2; lra|lia]| |lra]. change (1 - 54)%Z with (-53)%Z. fold uu. lra. }
  eapply ap_weak; [apply (ap_mul _ _ _ _ _ _ _ _ _ 3 D pi64 pi_R4); [rewrite <- bpow_plus; right; reflexivity|lia]| |lra].
  change (3 - 54)%Z with (2 + -53)%Z. rewrite bpow_plus. fold uu. change (bpow radix2 1) with 2. change (bpow radix2 2) with 4. lra.
Qed.
Lemma lat64 j n : (0 <= j <= n)%Z -> (1 <= n <= 2 ^ 50)%Z -> ap (b64_mult mode_NE (dv (nofZ j : f64) n) pi_lit) (dv (IZR j) n * pi_lit) (13 * uu) (bpow radix2 3).
Proof.
  intros Hi Hn. pose proof (quo_e j n Hi Hn) as Q. pose proof uu_pos as U.
  eapply ap_weak; [apply (ap_mul _ _ _ _ _ _ _ _ _ 3 Q pi64 pi_R4); [change (bpow radix2 2) with 4; change (bpow radix2 3) with 8; lra|lia]| |lra].
  change (3 - 54)%Z with (2 + -53)%Z. rewrite bpow_plus. fold uu. change (bpow radix2 2) with 4. lra.
Qed.

(** ** Close meshes *)
Definition pnear (K : Z) (e : R) (p : Point3 f64) (P : pt3) : Prop :=
  fits_pt K p /\ (Rabs (px P) <= bpow radix2 K /\ Rabs (py P) <= bpow radix2 K /\ Rabs (pz P) <= bpow radix2 K) /\ close_pt p P e.
Lemma Forall2_flat {A B} (Q : A -> B -> Prop) (f : Z -> list A) (g : Z -> list B) l : (forall i, In i l -> Forall2 Q (f i) (g i)) -> Forall2 Q (flat_map f l) (flat_map g l).
Proof. induction l as [|x l IH]; intros H; [constructor|]. cbn [flat_map]. apply Forall2_app; [apply H; left; reflexivity|apply IH; intros; apply H; right; assumption]. Qed.
Definition rnear (B e : R) (p P : pt3) : Prop :=
  (Rabs (px p) <= B /\ Rabs (py p) <= B /\ Rabs (pz p) <= B) /\ (Rabs (px P) <= B /\ Rabs (py P) <= B /\ Rabs (pz P) <= B) /\
  (Rabs (px p - px P) <= e /\ Rabs (py p - py P) <= e /\ Rabs (pz p - pz P) <= e).
Lemma rnear_at K e vs Vs i : 0 <= e -> Forall2 (pnear K e) vs Vs -> rnear (bpow radix2 K) e (at_ (map val_pt vs) i) (at_ Vs i).
Proof.
  intros He H. unfold at_. pose proof (bpow_gt_0 radix2 K) as BK. set (k := Z.to_nat i). clearbody k. revert k. induction H as [|p P vs Vs Hp H IH]; intros k.
  - assert (rnear (bpow radix2 K) e O3 O3) as D. { unfold rnear. cbn [px py pz O3]. rewrite Rminus_0_r, Rabs_R0. repeat split; lra. } destruct k; exact D.
  - destruct k; [|apply IH]. cbn [map nth]. destruct Hp as (((_ & F1) & (_ & F2) & (_ & F3)) & BP & ((_ & C1) & (_ & C2) & (_ & C3))). repeat split; assumption || apply BP.
Qed.
Lemma prod3 B e a b c A C D : 0 <= e -> Rabs a <= B -> Rabs b <= B -> Rabs c <= B -> Rabs A <= B -> Rabs C <= B -> Rabs D <= B -> Rabs (a - A) <= e -> Rabs (b - C) <= e -> Rabs (c - D) <= e ->
  Rabs (a * b * c - A * C * D) <= 3 * (B * B * e).
Proof.
  intros He Ha Hb Hc HA HC HD E1 E2 E3. replace (a * b * c - A * C * D) with ((a - A) * (b * c) + A * ((b - C) * c) + A * (C * (c - D))) by ring.
  pose proof (Rabs_pos a). assert (0 <= B) by lra.
  assert (forall x y z u v w, Rabs x <= u -> Rabs y <= v -> Rabs z <= w -> Rabs (x * (y * z)) <= u * (v * w)) as M.
  { intros x y z u v w Hx Hy Hz. rewrite !Rabs_mult. pose proof (Rabs_pos x). pose proof (Rabs_pos y). pose proof (Rabs_pos z). apply Rmult_le_compat; [lra|apply Rmult_le_pos; lra|exact Hx|]. apply Rmult_le_compat; lra. }
  pose proof (M _ _ _ _ _ _ E1 Hb Hc). pose proof (M _ _ _ _ _ _ HA E2 Hc). pose proof (M _ _ _ _ _ _ HA HC E3).
  eapply Rle_trans; [apply Rabs_triang|]. pose proof (Rabs_triang ((a - A) * (b * c)) (A * ((b - C) * c))). lra.
Qed.
Lemma tetra_near B e p q s P Q S : 0 <= e -> rnear B e p P -> rnear B e q Q -> rnear B e s S -> Rabs (tetra_vol p q s - tetra_vol P Q S) <= 3 * (B * B * e).
Proof.
  intros He ((p1 & p2 & p3) & (P1 & P2 & P3) & (d1 & d2 & d3)) ((q1 & q2 & q3) & (Q1 & Q2 & Q3) & (f1 & f2 & f3)) ((s1 & s2 & s3) & (S1 & S2 & S3) & (g1 & g2 & g3)).
  unfold tetra_vol, det3, dot3, cross3. cbn [px py pz].
  pose proof (prod3 B e _ _ _ _ _ _ He p1 q2 s3 P1 Q2 S3 d1 f2 g3) as A1. pose proof (prod3 B e _ _ _ _ _ _ He p1 q3 s2 P1 Q3 S2 d1 f3 g2) as A2.
  pose proof (prod3 B e _ _ _ _ _ _ He p2 q3 s1 P2 Q3 S1 d2 f3 g1) as A3. pose proof (prod3 B e _ _ _ _ _ _ He p2 q1 s3 P2 Q1 S3 d2 f1 g3) as A4.
  pose proof (prod3 B e _ _ _ _ _ _ He p3 q1 s2 P3 Q1 S2 d3 f1 g2) as A5. pose proof (prod3 B e _ _ _ _ _ _ He p3 q2 s1 P3 Q2 S1 d3 f2 g1) as A6.
  apply Rabs_le_inv in A1, A2, A3, A4, A5, A6. set (X := B * B * e) in *. clearbody X. apply Rabs_le. split; lra.
Qed.
Lemma msum_near B e vs Vs ts : 0 <= e -> (forall i, rnear B e (at_ vs i) (at_ Vs i)) -> Rabs (msum vs ts - msum Vs ts) <= IZR (len ts) * (3 * (B * B * e)).
Proof.
  intros He H. induction ts as [|[[x y] z] ts IH]. { unfold msum. cbn. rewrite Rminus_0_r, Rabs_R0. lra. }
  change ((x, y, z) :: ts) with ([(x, y, z)] ++ ts). rewrite !msum_app, !msum_1, len_app, plus_IZR. change (IZR (len [(x, y, z)])) with 1.
  pose proof (tetra_near B e _ _ _ _ _ _ He (H x) (H y) (H z)) as A. apply Rabs_le_inv in A, IH. apply Rabs_le. lra.
Qed.
Lemma val_mesh_is vs ts c : val_mesh (mkA vs (alive ts) c) = mkA (map val_pt vs) (alive ts) c. Proof. reflexivity. Qed.
Lemma total_msum vs ts c : total_vol (mkA vs (alive ts) c) = msum vs ts.
Proof. unfold total_vol. rewrite faces_is. reflexivity. Qed.
(** The volume of a mesh of doubles that is near a mesh over the reals. *)
Lemma volume_near (m : Mesh f64) vs Vs ts c K e : (-200 <= K <= 200)%Z -> 0 <= e -> is m vs ts c -> (len ts <= 2 ^ 50)%Z -> Forall2 (pnear K (e * bpow radix2 (K - 53))) vs Vs ->
  exists v, volume m = Ok v /\ close_to v (msum Vs ts) (3 * IZR (len ts) * (IZR (len ts) + 8 + e) * bpow radix2 (3 * K - 53)).
Proof.
  intros HK He [Rm S] HL H.
  destruct (reach_volume_err m _ K Rm S HK) as (v & E & F & D).
  { cbn [averts]. clear -H. induction H as [|p P vs Vs Hp _ IH]; constructor; [apply Hp|exact IH]. }
  { rewrite live_alive. exact HL. }
  exists v. split; [exact E|]. split; [exact F|]. cbn zeta in D. rewrite live_alive in D. rewrite val_mesh_is, total_msum in D.
  assert (0 <= e * bpow radix2 (K - 53)) as E0 by (apply Rmult_le_pos; [exact He|apply bpow_ge_0]).
  pose proof (msum_near (bpow radix2 K) _ (map val_pt vs) Vs ts E0 (fun i => rnear_at K _ vs Vs i E0 H)) as M.
  assert (bpow radix2 (3 * K - 53) = bpow radix2 K * bpow radix2 K * bpow radix2 (K - 53)) as W by (rewrite <- !bpow_plus; f_equal; lia).
  rewrite W in *. set (X := bpow radix2 K * bpow radix2 K) in *. set (Y := bpow radix2 (K - 53)) in *. set (n := IZR (len ts)) in *. set (w := val v) in *. set (a := msum (map val_pt vs) ts) in *. set (b := msum Vs ts) in *. clearbody X Y n w a b.
  apply Rabs_le_inv in D, M. apply Rabs_le. replace (3 * n * (n + 8 + e) * (X * Y)) with (3 * n * (n + 8) * (X * Y) + n * (3 * (X * (e * Y)))) by ring. lra.
Qed.

(** ** The vertices *)
Section Solids.
Variable TR : Trig f64.
Hypothesis G : good_trig TR.
Variable k : Z.
Hypothesis Hk : (-190 <= k <= 190)%Z.
Lemma turn_e i n : (0 <= i <= n)%Z -> (1 <= n <= 2 ^ 50)%Z ->
  ap (ncos (angle i n : f64)) (cos (angle i n)) (14 * uu) (bpow radix2 0) /\ ap (nsin (angle i n : f64)) (sin (angle i n)) (14 * uu) (bpow radix2 0).
Proof. intros Hi Hn. destruct (trig_e TR G _ _ _ _ (angle64 i n Hi Hn) ltac:(lia)) as [C S]. apply stored_ap in C, S. replace 14 with (13 + 1) by ring. split; assumption. Qed.
Lemma lat_e j n : (0 <= j <= n)%Z -> (1 <= n <= 2 ^ 50)%Z ->
  ap (ncos (b64_mult mode_NE (dv (nofZ j : f64) n) pi_lit)) (cos (dv (IZR j) n * pi_lit)) (14 * uu) (bpow radix2 0) /\ ap (nsin (b64_mult mode_NE (dv (nofZ j : f64) n) pi_lit)) (sin (dv (IZR j) n * pi_lit)) (14 * uu) (bpow radix2 0).
Proof. intros Hi Hn. destruct (trig_e TR G _ _ _ _ (lat64 j n Hi Hn) ltac:(lia)) as [C S]. apply stored_ap in C, S. replace 14 with (13 + 1) by ring. split; assumption. Qed.
Lemma k9 : (-900 <= k <= 900)%Z. Proof. lia. Qed.
(** Products of a length and a sine or cosine. *)
Lemma times_e x X c i y Y e : aps k x X c i -> (0 <= i <= 20)%Z -> ap y Y (14 * uu) (bpow radix2 0) -> Rabs Y <= bpow radix2 0 -> bpow radix2 i * 14 + c + bpow radix2 i / 2 <= e -> aps k (b64_mult mode_NE x y) (X * Y) e i.
Proof.
  intros Hx Hi Hy HY L. pose proof (aps_mul k k9 _ _ _ _ _ _ i 0 Hx Hy HY Hi ltac:(lia)) as M. rewrite Z.add_0_r in M. apply (aps_mono k) with (1 := M). change (bpow radix2 0) with 1. lra.
Qed.
Lemma etimes_x x r Y : fits k r -> ap x Y (14 * uu) (bpow radix2 0) -> Rabs Y <= bpow radix2 0 -> aps k (b64_mult mode_NE x r) (Y * V64 r) 15 0.
Proof.
  intros Hr Hy HY. pose proof uu_pos. pose proof (bpow_gt_0 radix2 k). pose proof (bSe k 0) as Q. change (bpow radix2 0) with 1 in *. rewrite Z.add_0_r in Q.
  eapply ap_weak; [apply (ap_mul x r _ _ _ _ _ _ (bpow radix2 k) k Hy (ap_exact k r Hr)); [apply Hr|lra|lia]| |].
  - rewrite Q. assert (0 < uu * bpow radix2 k) by (apply Rmult_lt_0_compat; lra). nra.
  - change (bpow radix2 0) with 1; lra.
Qed.
Lemma aps_in c i x X : aps k x X c i -> fits (k + i) x.
Proof. intros (F & _ & B). split; [exact F|]. rewrite bS. exact B. Qed.
Lemma half_len h : fits k h -> aps k (dv h 2) (dv (V64 h) 2) 1 0.
Proof.
  intros [F B]. change (dv h 2) with (b64_div mode_NE h (f64_ofZ 2)). rewrite dv_R by lia. destruct (ofZ_exact 2 ltac:(lia)) as [E2 F2]. unfold val in B. fold (V64 h) in B.
  assert (Rabs (V64 h / 2) <= bpow radix2 k) as Bh. { unfold Rdiv. rewrite Rabs_mult, (Rabs_pos_eq (/ 2)) by lra. pose proof (Rabs_pos (V64 h)). lra. }
  destruct (div_e h (f64_ofZ 2) (bpow radix2 k) F) as [E Fd]; [rewrite E2; lra|rewrite E2; exact Bh|apply bpow_le; lia|]. rewrite E2 in E. split; [exact Fd|]. rewrite E. split.
  - eapply Rle_trans; [apply (round64_err _ k ltac:(lia) Bh)|]. pose proof (bSe k 0) as Q. rewrite Z.add_0_r in Q. rewrite Q. change (bpow radix2 0) with 1. pose proof (bpow_gt_0 radix2 k). pose proof uu_pos. nra.
  - change (bpow radix2 0) with 1. rewrite Rmult_1_l. apply round64_bound; [apply fmt_bpow; lia|exact Bh].
Qed.
Lemma zero_e : aps k (n0 : f64) 0 0 0.
Proof. destruct (ofZ_exact 0 ltac:(lia)) as [E F]. split; [exact F|]. change (V64 n0) with (V64 (f64_ofZ 0)). rewrite E, Rminus_0_r, Rabs_R0. change (bpow radix2 0) with 1. pose proof (bpow_gt_0 radix2 k). lra. Qed.
Lemma mk_near i e x y z X Y Z c1 c2 c3 : aps k x X c1 i -> aps k y Y c2 i -> aps k z Z c3 i -> c1 <= e -> c2 <= e -> c3 <= e ->
  Rabs X <= bpow radix2 (k + i) -> Rabs Y <= bpow radix2 (k + i) -> Rabs Z <= bpow radix2 (k + i) -> pnear (k + i) (e * bpow radix2 (k - 53)) (mkP x y z) (mkP X Y Z).
Proof.
  intros H1 H2 H3 L1 L2 L3 B1 B2 B3. split; [|split].
  - split; [|split]; eapply aps_in; eassumption.
  - auto.
  - split; [|split]; [exact (aps_close k _ _ _ _ _ H1 L1)|exact (aps_close k _ _ _ _ _ H2 L2)|exact (aps_close k _ _ _ _ _ H3 L3)].
Qed.
Lemma abs_mul1 x y b : Rabs x <= b -> Rabs y <= bpow radix2 0 -> Rabs (x * y) <= b.
Proof. change (bpow radix2 0) with 1. intros Hx Hy. rewrite Rabs_mult. pose proof (Rabs_pos x). pose proof (Rabs_pos y). nra. Qed.

Lemma cyl_near64 h r n : fits k h -> fits k r -> (1 <= n <= 2 ^ 50)%Z -> Forall2 (pnear k (15 * bpow radix2 (k - 53))) (cyl_vs r (dv h 2) n) (cyl_vs (val r) (dv (val h) 2) n).
Proof.
  intros Hh Hr Hn. pose proof (half_len h Hh) as Z. change (V64 h) with (val h) in Z. set (z := dv h 2) in *. assert (Rabs (dv (val h) 2) <= bpow radix2 (k + 0)) as BZ.
  { rewrite Z.add_0_r, dv_R by lia. destruct Hh as [_ B]. unfold Rdiv. rewrite Rabs_mult, (Rabs_pos_eq (/ 2)) by lra. pose proof (Rabs_pos (val h)). lra. }
  set (Zr := dv (val h) 2) in *. pose proof (opp_ap _ _ _ _ Z) as Z'. assert (Rabs (- Zr) <= bpow radix2 (k + 0)) as BZ' by (rewrite Rabs_Ropp; exact BZ).
  assert (Rabs (val r) <= bpow radix2 (k + 0)) as BR by (rewrite Z.add_0_r; apply Hr). assert (Rabs 0 <= bpow radix2 (k + 0)) as B0 by (rewrite Rabs_R0; apply bpow_ge_0).
  rewrite <- (Z.add_0_r k) at 1. unfold cyl_vs. apply Forall2_app.
  - apply Forall2_flat. intros i Hi. apply in_zrange in Hi. destruct (turn_e i n ltac:(lia) Hn) as [C S]. unfold cyl_p.
    pose proof (etimes_x _ r _ Hr C (cos_1 _)) as X. pose proof (etimes_x _ r _ Hr S (sin_1 _)) as Y. change (V64 r) with (val r) in X, Y.
    pose proof (abs_mul1 _ _ _ BR (cos_1 (angle i n))) as BX. pose proof (abs_mul1 _ _ _ BR (sin_1 (angle i n))) as BY. rewrite Rmult_comm in BX, BY.
    constructor; [|constructor; [|constructor]].
    + exact (mk_near 0 15 _ _ _ _ _ _ _ _ _ X Y Z ltac:(lra) ltac:(lra) ltac:(lra) BX BY BZ).
    + exact (mk_near 0 15 _ _ _ _ _ _ _ _ _ X Y Z' ltac:(lra) ltac:(lra) ltac:(lra) BX BY BZ').
  - constructor; [|constructor; [|constructor]].
    + exact (mk_near 0 15 _ _ _ _ _ _ _ _ _ zero_e zero_e Z ltac:(lra) ltac:(lra) ltac:(lra) B0 B0 BZ).
    + exact (mk_near 0 15 _ _ _ _ _ _ _ _ _ zero_e zero_e Z' ltac:(lra) ltac:(lra) ltac:(lra) B0 B0 BZ').
Qed.
Lemma uv_near64 r n M : fits k r -> (1 <= n <= 2 ^ 50)%Z -> (1 <= M <= 2 ^ 50)%Z -> Forall2 (pnear k (30 * bpow radix2 (k - 53))) (uv_vs r n M) (uv_vs (val r) n M).
Proof.
  intros Hr Hn HM. assert (Rabs (val r) <= bpow radix2 (k + 0)) as BR by (rewrite Z.add_0_r; apply Hr). assert (Rabs 0 <= bpow radix2 (k + 0)) as B0 by (rewrite Rabs_R0; apply bpow_ge_0).
  pose proof (aps_fits k r Hr) as A. change (V64 r) with (val r) in A. pose proof (opp_ap _ _ _ _ A) as A'. assert (Rabs (- val r) <= bpow radix2 (k + 0)) as BR' by (rewrite Rabs_Ropp; exact BR).
  rewrite <- (Z.add_0_r k) at 1. unfold uv_vs. apply Forall2_app.
  - apply Forall2_flat. intros i Hi. apply Forall2_flat. intros j Hj. apply in_zrange in Hi, Hj. constructor; [|constructor]. unfold uv_p.
    destruct (turn_e i n ltac:(lia) Hn) as [C S]. destruct (lat_e j M ltac:(lia) HM) as [C2 S2].
    assert (aps k (b64_mult mode_NE r (nsin (b64_mult mode_NE (dv (nofZ j : f64) M) pi_lit))) (val r * sin (dv (IZR j) M * pi_lit)) 15 0) as X by (eapply times_e; [exact A|lia|exact S2|apply sin_1|pows; lra]).
    assert (aps k (b64_mult mode_NE r (ncos (b64_mult mode_NE (dv (nofZ j : f64) M) pi_lit))) (val r * cos (dv (IZR j) M * pi_lit)) 15 0) as Y by (eapply times_e; [exact A|lia|exact C2|apply cos_1|pows; lra]).
    pose proof (times_e _ _ _ _ _ _ 30 X ltac:(lia) C (cos_1 _) ltac:(pows; lra)) as X1. pose proof (times_e _ _ _ _ _ _ 30 X ltac:(lia) S (sin_1 _) ltac:(pows; lra)) as X2.
    pose proof (abs_mul1 _ _ _ BR (sin_1 (dv (IZR j) M * pi_lit))) as BS. 
    exact (mk_near 0 30 _ _ _ _ _ _ _ _ _ X1 X2 Y ltac:(lra) ltac:(lra) ltac:(lra) (abs_mul1 _ _ _ BS (cos_1 _)) (abs_mul1 _ _ _ BS (sin_1 _)) (abs_mul1 _ _ _ BR (cos_1 _))).
  - constructor; [|constructor; [|constructor]].
    + exact (mk_near 0 30 _ _ _ _ _ _ _ _ _ zero_e zero_e A ltac:(lra) ltac:(lra) ltac:(lra) B0 B0 BR).
    + exact (mk_near 0 30 _ _ _ _ _ _ _ _ _ zero_e zero_e A' ltac:(lra) ltac:(lra) ltac:(lra) B0 B0 BR').
Qed.
Lemma torus_near64 rM rm n M : fits k rM -> fits k rm -> (1 <= n <= 2 ^ 50)%Z -> (1 <= M <= 2 ^ 50)%Z -> Forall2 (pnear (k + 1) (45 * bpow radix2 (k - 53))) (torus_vs rM rm n M) (torus_vs (val rM) (val rm) n M).
Proof.
  intros HR Hr Hn HM. assert (Rabs (val rM) <= bpow radix2 k) as BR by apply HR. assert (Rabs (val rm) <= bpow radix2 k) as Br by apply Hr.
  pose proof (aps_fits k rM HR) as A. pose proof (aps_fits k rm Hr) as B. change (V64 rM) with (val rM) in A. change (V64 rm) with (val rm) in B.
  assert (bpow radix2 (k + 1) = 2 * bpow radix2 k) as K1 by (rewrite bpow_plus; change (bpow radix2 1) with 2; ring). pose proof (bpow_gt_0 radix2 k) as K0.
  unfold torus_vs. apply Forall2_flat. intros i Hi. apply Forall2_flat. intros j Hj. apply in_zrange in Hi, Hj. constructor; [|constructor]. unfold torus_p.
  destruct (turn_e i n ltac:(lia) Hn) as [C S]. destruct (turn_e j M ltac:(lia) HM) as [C2 S2].
  pose proof (times_e _ _ _ _ _ _ 15 B ltac:(lia) C2 (cos_1 _) ltac:(pows; lra)) as X. pose proof (times_e _ _ _ _ _ _ 15 B ltac:(lia) S2 (sin_1 _) ltac:(pows; lra)) as Z.
  assert (bpow radix2 0 + bpow radix2 0 <= bpow radix2 1) as L by (pows; lra). pose proof (aps_add k k9 _ _ _ _ _ _ _ _ 1 A X L ltac:(lia)) as W.
  apply (aps_mono k _ _ _ _ 16) in W; [|pows; lra].
  pose proof (times_e _ _ _ _ _ _ 45 W ltac:(lia) C (cos_1 _) ltac:(pows; lra)) as X1. pose proof (times_e _ _ _ _ _ _ 45 W ltac:(lia) S (sin_1 _) ltac:(pows; lra)) as X2.
  pose proof (abs_mul1 _ _ _ Br (cos_1 (angle j M))) as Bc. pose proof (abs_mul1 _ _ _ Br (sin_1 (angle j M))) as Bs.
  assert (Rabs (val rM + val rm * cos (angle j M)) <= bpow radix2 (k + 1)) as Bw. { rewrite K1. eapply Rle_trans; [apply Rabs_triang|]. lra. }
  assert (aps k (b64_mult mode_NE rm (nsin (angle j M : f64))) (val rm * sin (angle j M)) 15 1) as Z1 by (eapply ap_weak; [exact Z|lra|pows; lra]).
  refine (mk_near 1 45 _ _ _ _ _ _ _ _ _ X1 X2 Z1 _ _ _ (abs_mul1 _ _ _ Bw (cos_1 _)) (abs_mul1 _ _ _ Bw (sin_1 _)) _); lra.
Qed.
End Solids.
