(** Rounding errors in the measure of one triangle. *)
From Coq Require Import ZArith List Bool Reals Lra Lia Psatz.
From Flocq Require Import Core Relative IEEE754.Binary IEEE754.Bits IEEE754.BinarySingleNaN.
From Verif Require Import Base Num MGeometry MStl MF64 SMesh SGeom SMeasure SErr LBase LGeom LF64 LF64Arith LErr1.
Import ListNotations.
Open Scope R_scope.

(** [r] is a double within [e] of [x] and of magnitude at most [b] *)
Definition ap (r : f64) (x e b : R) : Prop := fin64 r = true /\ Rabs (V64 r - x) <= e /\ Rabs (V64 r) <= b.

Lemma le1000 j : (j <= 1000)%Z -> bpow radix2 j <= bpow radix2 1000. Proof. intros H. apply bpow_le. exact H. Qed.
Lemma abs_prod x y a b : Rabs x <= a -> Rabs y <= b -> Rabs (x * y) <= a * b.
Proof. intros H1 H2. rewrite Rabs_mult. apply Rmult_le_compat; auto using Rabs_pos. Qed.

Lemma ap_sub (x y : f64) X Y ex ey bx by' j : ap x X ex bx -> ap y Y ey by' -> bx + by' <= bpow radix2 j -> (-1021 <= j <= 1000)%Z ->
  ap (b64_minus mode_NE x y) (X - Y) (ex + ey + bpow radix2 (j - 54)) (bpow radix2 j).
Proof.
  intros (Fx & Ex & Bx) (Fy & Ey & By) H Hj.
  assert (Rabs (V64 x - V64 y) <= bpow radix2 j) as B by (revert Bx By; unfold Rabs; repeat destruct Rcase_abs; lra).
  destruct (sub_e x y _ Fx Fy B (le1000 j ltac:(lia))) as [E F]. destruct (rounded_pow _ _ j E ltac:(lia) B) as [R1 R2].
  split; [exact F|]. split; [|exact R1]. revert Ex Ey R2. clear. unfold Rabs; repeat destruct Rcase_abs; lra.
Qed.
Lemma ap_add (x y : f64) X Y ex ey bx by' j : ap x X ex bx -> ap y Y ey by' -> bx + by' <= bpow radix2 j -> (-1021 <= j <= 1000)%Z ->
  ap (b64_plus mode_NE x y) (X + Y) (ex + ey + bpow radix2 (j - 54)) (bpow radix2 j).
Proof.
  intros (Fx & Ex & Bx) (Fy & Ey & By) H Hj.
  assert (Rabs (V64 x + V64 y) <= bpow radix2 j) as B by (revert Bx By; unfold Rabs; repeat destruct Rcase_abs; lra).
  destruct (add_e x y _ Fx Fy B (le1000 j ltac:(lia))) as [E F]. destruct (rounded_pow _ _ j E ltac:(lia) B) as [R1 R2].
  split; [exact F|]. split; [|exact R1]. revert Ex Ey R2. clear. unfold Rabs; repeat destruct Rcase_abs; lra.
Qed.
(** [B] bounds the exact second factor's companion: |x y - X Y| <= |x| ey + |Y| ex *)
Lemma ap_mul (x y : f64) X Y ex ey bx by' B j : ap x X ex bx -> ap y Y ey by' -> Rabs Y <= B -> bx * by' <= bpow radix2 j -> (-1021 <= j <= 1000)%Z ->
  ap (b64_mult mode_NE x y) (X * Y) (bx * ey + B * ex + bpow radix2 (j - 54)) (bpow radix2 j).
Proof.
  intros (Fx & Ex & Bx) (Fy & Ey & By) HB H Hj.
  assert (Rabs (V64 x * V64 y) <= bpow radix2 j) as B' by (pose proof (abs_prod _ _ _ _ Bx By); lra).
  destruct (mul_e x y _ Fx Fy B' (le1000 j ltac:(lia))) as [E F]. destruct (rounded_pow _ _ j E ltac:(lia) B') as [R1 R2].
  split; [exact F|]. split; [|exact R1].
  pose proof (abs_prod _ _ _ _ Bx Ey) as P1. pose proof (abs_prod _ _ _ _ HB Ex) as P2.
  replace (V64 (b64_mult mode_NE x y) - X * Y) with ((V64 (b64_mult mode_NE x y) - V64 x * V64 y) + V64 x * (V64 y - Y) + Y * (V64 x - X)) by ring.
  eapply Rle_trans; [apply Rabs_triang|]. pose proof (Rabs_triang (V64 (b64_mult mode_NE x y) - V64 x * V64 y) (V64 x * (V64 y - Y))). lra.
Qed.
Lemma ap_weak r x e b e' b' : ap r x e b -> e <= e' -> b <= b' -> ap r x e' b'.
Proof. intros (F & E & B) He Hb. split; [exact F|]. split; lra. Qed.
Lemma ap_exact k x : fits k x -> ap x (V64 x) 0 (bpow radix2 k).
Proof. intros [F H]. split; [exact F|]. split; [rewrite Rminus_diag_eq, Rabs_R0 by reflexivity; lra|exact H]. Qed.

Section Tri.
Variable k : Z.
Hypothesis Hk : (-200 <= k <= 200)%Z.
Let S : R := bpow radix2 k.
Lemma S_pos : 0 < S. Proof. apply bpow_gt_0. Qed.
Lemma S2 : bpow radix2 (2 * k) = S * S. Proof. unfold S. rewrite <- bpow_plus. f_equal. lia. Qed.
Lemma S3 : bpow radix2 (3 * k) = S * (S * S). Proof. unfold S. rewrite <- !bpow_plus. f_equal. lia. Qed.
Lemma sc (j c : Z) (X : R) (n : R) : bpow radix2 j = X -> bpow radix2 c = n -> bpow radix2 (j + c) = n * X.
Proof. intros <- <-. rewrite bpow_plus. ring. Qed.
Lemma sce (j c d : Z) (X : R) (n : R) : (j + c - 54 = j - 53 + d)%Z -> bpow radix2 j = X -> bpow radix2 d = n -> bpow radix2 (j + c - 54) = n * (uu * X).
Proof. intros E <- <-. rewrite E. unfold uu. replace (j - 53 + d)%Z with (d + (-53 + j))%Z by lia. rewrite !bpow_plus. reflexivity. Qed.

Lemma diff_ap (x y : f64) : fits k x -> fits k y -> ap (b64_minus mode_NE x y) (V64 x - V64 y) (uu * S) (2 * S) /\ Rabs (V64 x - V64 y) <= 2 * S.
Proof.
  intros Fx Fy. pose proof S_pos. split.
  - eapply ap_weak; [apply (ap_sub x y _ _ _ _ _ _ (k + 1) (ap_exact k x Fx) (ap_exact k y Fy)); [|lia]| |].
    + fold S. rewrite (sc k 1 S 2 eq_refl eq_refl). lra.
    + rewrite (sce k 1 0 S 1 ltac:(lia) eq_refl eq_refl). lra.
    + rewrite (sc k 1 S 2 eq_refl eq_refl). lra.
  - destruct Fx as [_ Hx], Fy as [_ Hy]. unfold val in *. fold S in Hx, Hy. revert Hx Hy. unfold Rabs; repeat destruct Rcase_abs; lra.
Qed.
Lemma prod_ap (x y : f64) X Y : ap x X (uu * S) (2 * S) -> ap y Y (uu * S) (2 * S) -> Rabs Y <= 2 * S ->
  ap (b64_mult mode_NE x y) (X * Y) (6 * (uu * (S * S))) (4 * (S * S)).
Proof.
  intros Ax Ay HY. pose proof S_pos. eapply ap_weak; [apply (ap_mul x y _ _ _ _ _ _ _ (2 * k + 2) Ax Ay HY); [|lia]| |].
  - rewrite (sc (2 * k) 2 (S * S) 4 S2 eq_refl). lra.
  - rewrite (sce (2 * k) 2 1 (S * S) 2 ltac:(lia) S2 eq_refl). lra.
  - rewrite (sc (2 * k) 2 (S * S) 4 S2 eq_refl). lra.
Qed.
Lemma minor_ap (a b c d : f64) A B C D : ap a A (uu * S) (2 * S) -> ap b B (uu * S) (2 * S) -> ap c C (uu * S) (2 * S) -> ap d D (uu * S) (2 * S) ->
  Rabs A <= 2 * S -> Rabs B <= 2 * S -> Rabs C <= 2 * S -> Rabs D <= 2 * S ->
  ap (b64_minus mode_NE (b64_mult mode_NE a b) (b64_mult mode_NE c d)) (A * B - C * D) (16 * (uu * (S * S))) (8 * (S * S)) /\ Rabs (A * B - C * D) <= 8 * (S * S).
Proof.
  intros Aa Ab Ac Ad HA HB HC HD. pose proof S_pos. split.
  - eapply ap_weak; [apply (ap_sub _ _ _ _ _ _ _ _ (2 * k + 3) (prod_ap _ _ _ _ Aa Ab HB) (prod_ap _ _ _ _ Ac Ad HD)); [|lia]| |].
    + rewrite (sc (2 * k) 3 (S * S) 8 S2 eq_refl). lra.
    + rewrite (sce (2 * k) 3 2 (S * S) 4 ltac:(lia) S2 eq_refl). lra.
    + rewrite (sc (2 * k) 3 (S * S) 8 S2 eq_refl). lra.
  - pose proof (abs_prod _ _ _ _ HA HB). pose proof (abs_prod _ _ _ _ HC HD).
    replace (A * B - C * D) with (A * B + - (C * D)) by ring. eapply Rle_trans; [apply Rabs_triang|]. rewrite Rabs_Ropp. lra.
Qed.

Definition ap_pt (p : Point3 f64) (P : pt3) (e b : R) : Prop := ap (px p) (px P) e b /\ ap (py p) (py P) e b /\ ap (pz p) (pz P) e b.
Definition in_cube (P : pt3) (b : R) : Prop := Rabs (px P) <= b /\ Rabs (py P) <= b /\ Rabs (pz P) <= b.

Lemma orth_ap (p q r : Point3 f64) : fits_pt k p -> fits_pt k q -> fits_pt k r ->
  let C := cross3 (sub3 (val_pt p) (val_pt q)) (sub3 (val_pt p) (val_pt r)) in
  ap_pt (orthogonal (mkTri p q r)) C (16 * (uu * (S * S))) (8 * (S * S)) /\ in_cube C (8 * (S * S)).
Proof.
  destruct p as [p1 p2 p3], q as [q1 q2 q3], r as [r1 r2 r3]. intros (P1 & P2 & P3) (Q1 & Q2 & Q3) (R1 & R2 & R3). cbn [px py pz] in *.
  destruct (diff_ap _ _ P1 Q1) as [a1 b1], (diff_ap _ _ P2 Q2) as [a2 b2], (diff_ap _ _ P3 Q3) as [a3 b3],
    (diff_ap _ _ P1 R1) as [a4 b4], (diff_ap _ _ P2 R2) as [a5 b5], (diff_ap _ _ P3 R3) as [a6 b6].
  destruct (minor_ap _ _ _ _ _ _ _ _ a2 a6 a3 a5 b2 b6 b3 b5) as [m1 n1], (minor_ap _ _ _ _ _ _ _ _ a3 a4 a1 a6 b3 b4 b1 b6) as [m2 n2],
    (minor_ap _ _ _ _ _ _ _ _ a1 a5 a2 a4 b1 b5 b2 b4) as [m3 n3].
  cbn zeta. split.
  - split; [exact m1|]. split; [exact m2|exact m3].
  - split; [exact n1|]. split; [exact n2|exact n3].
Qed.

(** Six times the signed volume under one triangle. *)
Lemma dot_ap (p q r : Point3 f64) : fits_pt k p -> fits_pt k q -> fits_pt k r ->
  ap (dot p (orthogonal (mkTri p q r))) (6 * tetra_vol (val_pt p) (val_pt q) (val_pt r)) (84 * (uu * (S * (S * S)))) (32 * (S * (S * S))).
Proof.
  intros Hp Hq Hr. destruct (orth_ap p q r Hp Hq Hr) as [(o1 & o2 & o3) (c1 & c2 & c3)]. destruct Hp as (P1 & P2 & P3).
  set (C := cross3 (sub3 (val_pt p) (val_pt q)) (sub3 (val_pt p) (val_pt r))) in *.
  replace (6 * tetra_vol (val_pt p) (val_pt q) (val_pt r)) with (px (val_pt p) * px C + py (val_pt p) * py C + pz (val_pt p) * pz C)
    by (unfold C, tetra_vol, det3, dot3, cross3, sub3; cbn [px py pz]; field).
  set (O := orthogonal (mkTri p q r)) in *. clearbody O C. pose proof S_pos. pose proof uu_pos.
  assert (forall x o c, fits k x -> ap o c (16 * (uu * (S * S))) (8 * (S * S)) -> Rabs c <= 8 * (S * S) ->
    ap (b64_mult mode_NE x o) (V64 x * c) (20 * (uu * (S * (S * S)))) (8 * (S * (S * S)))) as M.
  { intros x o c Hx Ho Hc. eapply ap_weak; [apply (ap_mul _ _ _ _ _ _ _ _ _ (3 * k + 3) (ap_exact k x Hx) Ho Hc); [|lia]| |].
    - fold S. rewrite (sc (3 * k) 3 (S * (S * S)) 8 S3 eq_refl). lra.
    - fold S. rewrite (sce (3 * k) 3 2 (S * (S * S)) 4 ltac:(lia) S3 eq_refl). lra.
    - rewrite (sc (3 * k) 3 (S * (S * S)) 8 S3 eq_refl). lra. }
  pose proof (M _ _ _ P1 o1 c1) as M1. pose proof (M _ _ _ P2 o2 c2) as M2. pose proof (M _ _ _ P3 o3 c3) as M3.
  assert (0 < S * (S * S)) by (apply Rmult_lt_0_compat; [lra|apply Rmult_lt_0_compat; lra]).
  assert (ap (b64_plus mode_NE (b64_mult mode_NE (px p) (px O)) (b64_mult mode_NE (py p) (py O))) (V64 (px p) * px C + V64 (py p) * py C) (48 * (uu * (S * (S * S)))) (16 * (S * (S * S)))) as A1.
  { eapply ap_weak; [apply (ap_add _ _ _ _ _ _ _ _ (3 * k + 4) M1 M2); [|lia]| |].
    - rewrite (sc (3 * k) 4 (S * (S * S)) 16 S3 eq_refl). lra.
    - rewrite (sce (3 * k) 4 3 (S * (S * S)) 8 ltac:(lia) S3 eq_refl). lra.
    - rewrite (sc (3 * k) 4 (S * (S * S)) 16 S3 eq_refl). lra. }
  eapply ap_weak; [apply (ap_add _ _ _ _ _ _ _ _ (3 * k + 5) A1 M3); [|lia]| |].
  - rewrite (sc (3 * k) 5 (S * (S * S)) 32 S3 eq_refl). lra.
  - rewrite (sce (3 * k) 5 4 (S * (S * S)) 16 ltac:(lia) S3 eq_refl). lra.
  - rewrite (sc (3 * k) 5 (S * (S * S)) 32 S3 eq_refl). lra.
Qed.
End Tri.
