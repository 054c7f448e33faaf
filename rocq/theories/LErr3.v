(** Rounding errors of a length and of the area of a triangle. *)
From Coq Require Import ZArith List Bool Reals Lra Lia Psatz.
From Flocq Require Import Core Relative IEEE754.Binary IEEE754.Bits IEEE754.BinarySingleNaN.
From Verif Require Import Base Num MGeometry MStl MF64 SMesh SGeom SMeasure SErr LBase LGeom LMeasure LF64 LF64Arith LErr1 LErr2.
Import ListNotations.
Open Scope R_scope.

Lemma round64_nonneg x : 0 <= x -> 0 <= round64 x.
Proof. intros H. rewrite <- round64_0. apply round64_le. exact H. Qed.
Lemma sqr_e (x : f64) j : fin64 x = true -> Rabs (V64 x) <= bpow radix2 j -> (j <= 450)%Z ->
  let m := b64_mult mode_NE x x in fin64 m = true /\ 0 <= V64 m /\ Rabs (V64 m - V64 x * V64 x) <= uu * (V64 x * V64 x) + eta /\ V64 x * V64 x <= bpow radix2 (2 * j).
Proof.
  intros F H Hj m. pose proof (abs_prod _ _ _ _ H H) as B. rewrite <- bpow_plus in B. replace (j + j)%Z with (2 * j)%Z in B by lia.
  assert (0 <= V64 x * V64 x) as P by (apply Rle_0_sqr).
  destruct (mul_e x x _ F F B (le1000 (2 * j) ltac:(lia))) as [E G]. fold m in E, G. split; [exact G|]. split; [rewrite E; apply round64_nonneg, P|].
  split; [|rewrite Rabs_pos_eq in B by exact P; exact B].
  apply (rounded_rel m _ _ E). rewrite Rabs_pos_eq by exact P. lra.
Qed.
Lemma addp_e (x y : f64) b : fin64 x = true -> fin64 y = true -> 0 <= V64 x -> 0 <= V64 y -> V64 x + V64 y <= b -> b <= bpow radix2 1000 ->
  let m := b64_plus mode_NE x y in fin64 m = true /\ 0 <= V64 m /\ Rabs (V64 m - (V64 x + V64 y)) <= uu * (V64 x + V64 y) + eta.
Proof.
  intros Fx Fy Px Py H Hb m. assert (Rabs (V64 x + V64 y) <= b) as B by (rewrite Rabs_pos_eq; lra).
  destruct (add_e x y _ Fx Fy B Hb) as [E G]. fold m in E, G. split; [exact G|]. split; [rewrite E; apply round64_nonneg; lra|].
  apply (rounded_rel m _ _ E). rewrite Rabs_pos_eq; lra.
Qed.
Lemma eta_small : 8 * eta <= bpow radix2 900 /\ eta <= / 9007199254740992.
Proof.
  split.
  - change 8 with (bpow radix2 3). unfold eta. rewrite <- bpow_plus. apply bpow_le. lia.
  - rewrite <- uu_val. unfold uu, eta. apply bpow_le. lia.
Qed.

Lemma norm_square_e (x y z : f64) j : fin64 x = true -> fin64 y = true -> fin64 z = true -> (j <= 450)%Z ->
  Rabs (V64 x) <= bpow radix2 j -> Rabs (V64 y) <= bpow radix2 j -> Rabs (V64 z) <= bpow radix2 j ->
  let s := b64_plus mode_NE (b64_plus mode_NE (b64_mult mode_NE x x) (b64_mult mode_NE y y)) (b64_mult mode_NE z z) in
  let q := V64 x * V64 x + V64 y * V64 y + V64 z * V64 z in
  fin64 s = true /\ 0 <= V64 s /\ 0 <= q /\ Rabs (V64 s - q) <= 4 * uu * q + 8 * eta.
Proof.
  intros Fx Fy Fz Hj Hx Hy Hz. cbn zeta.
  destruct (sqr_e x j Fx Hx Hj) as (Fa & Pa & Ea & Ba), (sqr_e y j Fy Hy Hj) as (Fb & Pb & Eb & Bb), (sqr_e z j Fz Hz Hj) as (Fc & Pc & Ec & Bc).
  set (a := b64_mult mode_NE x x) in *. set (b := b64_mult mode_NE y y) in *. set (c := b64_mult mode_NE z z) in *.
  assert (bpow radix2 (2 * j) <= bpow radix2 900) as J by (apply bpow_le; lia).
  assert (64 * bpow radix2 900 <= bpow radix2 1000) as K by (change 64 with (bpow radix2 6); rewrite <- bpow_plus; apply bpow_le; lia).
  assert (1 <= bpow radix2 900) as K1 by (change 1 with (bpow radix2 0); apply bpow_le; lia).
  pose proof (Rle_0_sqr (V64 x)) as Qx. pose proof (Rle_0_sqr (V64 y)) as Qy. pose proof (Rle_0_sqr (V64 z)) as Qz. unfold Rsqr in *.
  set (X := V64 x * V64 x) in *. set (Y := V64 y * V64 y) in *. set (Z := V64 z * V64 z) in *.
  pose proof eta_small as [_ ES]. pose proof eta_pos as EP. rewrite uu_val in *.
  apply Rabs_le_inv in Ea, Eb, Ec.
  assert (V64 a + V64 b <= 8 * bpow radix2 900) as B1 by lra.
  destruct (addp_e a b _ Fa Fb Pa Pb B1 ltac:(lra)) as (F1 & P1 & E1). set (s := b64_plus mode_NE a b) in *. rewrite uu_val in E1. apply Rabs_le_inv in E1.
  assert (V64 s + V64 c <= 32 * bpow radix2 900) as B2 by lra.
  destruct (addp_e s c _ F1 Fc P1 Pc B2 ltac:(lra)) as (F2 & P2 & E2). rewrite uu_val in E2. apply Rabs_le_inv in E2.
  split; [exact F2|]. split; [exact P2|]. split; [lra|]. apply Rabs_le. set (t := V64 (b64_plus mode_NE s c)) in *. clearbody t X Y Z. lra.
Qed.

Lemma sqrt_8eta : sqrt (8 * eta) = bpow radix2 (-536).
Proof.
  replace (8 * eta) with (bpow radix2 (-536) * bpow radix2 (-536)); [apply sqrt_square, bpow_ge_0|].
  unfold eta. change 8 with (bpow radix2 3). rewrite <- !bpow_plus. reflexivity.
Qed.
Lemma sqrt_err s q h : 0 <= s -> 0 <= q -> 0 <= h -> Rabs (s - q) <= 4 * uu * q + h * h -> Rabs (sqrt s - sqrt q) <= 4 * uu * sqrt q + h.
Proof.
  intros Ps Pq Ph H. apply Rabs_le_inv in H. pose proof uu_pos as U. pose proof uu_val as UV.
  pose proof (sqrt_pos s) as A. pose proof (sqrt_pos q) as B. pose proof (sqrt_sqrt s Ps) as SS. pose proof (sqrt_sqrt q Pq) as SQ.
  set (a := sqrt s) in *. set (b := sqrt q) in *. assert (uu <= / 9007199254740992) as UL by lra. clear UV.
  assert (0 <= uu * b) by (apply Rmult_le_pos; lra).
  apply Rabs_le. split.
  - apply Rnot_lt_le. intros L. assert (a + h < (1 - 4 * uu) * b) as L' by lra.
    assert ((a + h) * (a + h) < ((1 - 4 * uu) * b) * ((1 - 4 * uu) * b)) as M by (apply Rmult_le_0_lt_compat; lra).
    assert (((1 - 4 * uu) * b) * ((1 - 4 * uu) * b) <= (1 - 4 * uu) * (b * b)) as M2.
    { replace (((1 - 4 * uu) * b) * ((1 - 4 * uu) * b)) with ((1 - 4 * uu) * ((1 - 4 * uu) * (b * b))) by ring.
      apply Rmult_le_compat_l; [lra|]. assert (0 <= b * b) by nra. nra. }
    assert (0 <= a * h) by nra. nra.
  - apply Rnot_lt_le. intros L. assert ((1 + 4 * uu) * b + h < a) as L' by lra.
    assert (0 <= (1 + 4 * uu) * b) by nra.
    assert (((1 + 4 * uu) * b + h) * ((1 + 4 * uu) * b + h) < a * a) as M by (apply Rmult_le_0_lt_compat; lra).
    assert (0 <= (1 + 4 * uu) * b * h) by (apply Rmult_le_pos; lra).
    assert ((1 + 4 * uu) * (b * b) <= ((1 + 4 * uu) * b) * ((1 + 4 * uu) * b)) as M2.
    { replace (((1 + 4 * uu) * b) * ((1 + 4 * uu) * b)) with ((1 + 4 * uu) * ((1 + 4 * uu) * (b * b))) by ring.
      apply Rmult_le_compat_l; [lra|]. assert (0 <= b * b) by nra. nra. }
    nra.
Qed.

(** The length of a vector of doubles. *)
Lemma norm_e (x y z : f64) j : fin64 x = true -> fin64 y = true -> fin64 z = true -> (j <= 450)%Z ->
  Rabs (V64 x) <= bpow radix2 j -> Rabs (V64 y) <= bpow radix2 j -> Rabs (V64 z) <= bpow radix2 j ->
  exists n, norm (mkP x y z) = Ok n /\ fin64 n = true /\ 0 <= V64 n /\
    Rabs (V64 n - sqrt (V64 x * V64 x + V64 y * V64 y + V64 z * V64 z)) <= 6 * uu * sqrt (V64 x * V64 x + V64 y * V64 y + V64 z * V64 z) + bpow radix2 (-535).
Proof.
  intros Fx Fy Fz Hj Hx Hy Hz. destruct (norm_square_e x y z j Fx Fy Fz Hj Hx Hy Hz) as (F & P & PQ & E). cbn zeta in *.
  set (s := b64_plus mode_NE (b64_plus mode_NE (b64_mult mode_NE x x) (b64_mult mode_NE y y)) (b64_mult mode_NE z z)) in *.
  set (q := V64 x * V64 x + V64 y * V64 y + V64 z * V64 z) in *.
  destruct (sqrt_e s F P) as [E1 F1]. exists (b64_sqrt mode_NE s). split; [reflexivity|]. split; [exact F1|].
  split; [rewrite E1; apply round64_nonneg, sqrt_pos|].
  assert (Rabs (sqrt (V64 s) - sqrt q) <= 4 * uu * sqrt q + bpow radix2 (-536)) as A.
  { rewrite <- sqrt_8eta. apply sqrt_err; [exact P|exact PQ|apply sqrt_pos|]. rewrite sqrt_sqrt by (pose proof eta_pos; lra). exact E. }
  pose proof (sqrt_pos (V64 s)) as PS.
  pose proof (rounded_rel _ _ (sqrt (V64 s)) E1 ltac:(rewrite Rabs_pos_eq by exact PS; lra)) as R.
  pose proof (sqrt_pos q) as PB. set (b := sqrt q) in *. set (a := sqrt (V64 s)) in *.
  apply Rabs_le_inv in A, R. apply Rabs_le. rewrite uu_val in *.
  assert (bpow radix2 (-535) = 2 * bpow radix2 (-536)) as D by (change 2 with (bpow radix2 1); rewrite <- bpow_plus; reflexivity).
  assert (eta <= / 4 * bpow radix2 (-536)) as EE by (change (/ 4) with (bpow radix2 (-2)); rewrite <- bpow_plus; apply bpow_le; lia).
  assert (0 < bpow radix2 (-536)) as G by apply bpow_gt_0.
  set (n := V64 (b64_sqrt mode_NE s)) in *. set (h := bpow radix2 (-536)) in *. clearbody n h a b. lra.
Qed.
