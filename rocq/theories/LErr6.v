(** Rounding errors of the plane through three points. *)
From Coq Require Import ZArith List Bool Reals Lra Lia Psatz.
From Flocq Require Import Core Relative IEEE754.Binary IEEE754.Bits IEEE754.BinarySingleNaN.
From Verif Require Import Base Num MGeometry MStl MF64 SMesh SGeom SMeasure SErr LBase LGeom LF64 LF64Arith LErr1 LErr2 LErr3 LErr4 LErr5.
Import ListNotations.
Open Scope R_scope.

Section Plane.
Variable k : Z.
Hypothesis Hk : (-200 <= k <= 200)%Z.
Let S : R := bpow radix2 k.
Let S_pos : 0 < S. Proof. apply bpow_gt_0. Qed.

(** a x + b y + c z with |a|, |b|, |c| <= 2 and |x|, |y|, |z| <= 2^k *)
Lemma lin_ap (a b c x y z : f64) : ap a (V64 a) 0 2 -> ap b (V64 b) 0 2 -> ap c (V64 c) 0 2 -> fits k x -> fits k y -> fits k z ->
  ap (b64_plus mode_NE (b64_plus mode_NE (b64_mult mode_NE a x) (b64_mult mode_NE b y)) (b64_mult mode_NE c z))
    (V64 a * V64 x + V64 b * V64 y + V64 c * V64 z) (9 * (uu * S)) (8 * S).
Proof.
  intros Ha Hb Hc Hx Hy Hz. assert (0 < uu * S) as US by (apply Rmult_lt_0_compat; [apply uu_pos|exact S_pos]).
  assert (forall a x, ap a (V64 a) 0 2 -> fits k x -> ap (b64_mult mode_NE a x) (V64 a * V64 x) (1 * (uu * S)) (2 * S)) as M.
  { intros a0 x0 A X. pose proof (ap_mul _ _ _ _ _ _ _ _ S (k + 1) A (ap_exact k x0 X)) as P.
    rewrite (sc k 1 S 2 eq_refl eq_refl), (sce k 1 0 S 1 ltac:(lia) eq_refl eq_refl) in P. fold S in P.
    eapply ap_weak; [apply P; [destruct X as [_ X]; exact X|lra|lia]|lra|lra]. }
  pose proof (ap_add _ _ _ _ _ _ _ _ (k + 2) (M _ _ Ha Hx) (M _ _ Hb Hy)) as A.
  rewrite (sc k 2 S 4 eq_refl eq_refl), (sce k 2 1 S 2 ltac:(lia) eq_refl eq_refl) in A. specialize (A ltac:(lra) ltac:(lia)).
  pose proof (ap_add _ _ _ _ _ _ _ _ (k + 3) A (M _ _ Hc Hz)) as B.
  rewrite (sc k 3 S 8 eq_refl eq_refl), (sce k 3 2 S 4 ltac:(lia) eq_refl eq_refl) in B. specialize (B ltac:(lra) ltac:(lia)).
  eapply ap_weak; [exact B|lra|lra].
Qed.

Lemma opp_ap x X e b : ap x X e b -> ap (b64_opp x) (- X) e b.
Proof.
  intros (F & E & B). assert (V64 (b64_opp x) = - V64 x) as V by (apply Binary.B2R_Bopp).
  split; [unfold b64_opp; rewrite Binary.is_finite_Bopp; exact F|]. rewrite V. split.
  - replace (- V64 x - - X) with (- (V64 x - X)) by ring. rewrite Rabs_Ropp. exact E.
  - rewrite Rabs_Ropp. exact B.
Qed.

Lemma near_unit (x : f64) y : close_to x y (11 * bpow radix2 (-53)) -> Rabs y <= 1 -> ap x (V64 x) 0 2.
Proof.
  intros [F E] H. split; [exact F|]. split; [rewrite Rminus_diag_eq, Rabs_R0 by reflexivity; lra|].
  fold uu in E. rewrite uu_val in E. unfold val in E. apply Rabs_le_inv in E, H. apply Rabs_le. lra.
Qed.

Lemma plane_err (p q r : Point3 f64) : fits_pt k p -> fits_pt k q -> fits_pt k r ->
  let P := val_pt p in let Q := val_pt q in let R := val_pt r in
  bpow radix2 (2 * k - 47) <= area3 P Q R ->
  exists pl, plane_of_points p q r = Ok pl /\
    (forall x, x = p \/ x = q \/ x = r -> close_to (plane_distance pl x) 0 (bpow radix2 (k - 53) * (96 * bpow radix2 (2 * k) / area3 P Q R + 92))).
Proof.
  intros Hp Hq Hr P Q R HA. destruct (orth_ap k Hk p q r Hp Hq Hr) as [(o1 & o2 & o3) CC]. fold S in o1, o2, o3, CC. fold P Q R in o1, o2, o3, CC.
  set (C := cross3 (sub3 P Q) (sub3 P R)) in *.
  assert (area3 P Q R = len3 C / 2) as AE by (unfold area3; rewrite <- collinear_cross; reflexivity). rewrite AE in *.
  assert (0 < S * S) as PS by (apply Rmult_lt_0_compat; exact S_pos). assert (0 < uu * (S * S)) as PU by (apply Rmult_lt_0_compat; [apply uu_pos|exact PS]).
  replace (bpow radix2 (2 * k - 47)) with (64 * (uu * (S * S))) in HA by (unfold S, uu; rewrite <- (S2 k); change 64 with (bpow radix2 6); rewrite <- !bpow_plus; f_equal; lia).
  replace (bpow radix2 (k - 53)) with (uu * S) by (unfold S, uu; rewrite <- bpow_plus; f_equal; lia). rewrite (S2 k). fold S.
  unfold plane_of_points. change (cross (psub p q) (psub p r)) with (orthogonal (mkTri p q r)). set (O := orthogonal (mkTri p q r)) in *.
  set (c := val_pt O).
  assert (in_cube (sub3 c C) (16 * (uu * (S * S)))) as IC by (destruct o1 as (_ & o1 & _), o2 as (_ & o2 & _), o3 as (_ & o3 & _); split; [exact o1|split; [exact o2|exact o3]]).
  assert (Rabs (len3 c - len3 C) <= 28 * (uu * (S * S))) as DL by (eapply Rle_trans; [apply len3_lip|]; eapply Rle_trans; [apply (len3_in_cube _ _ IC); lra|lra]).
  assert (len3 C / 2 <= len3 c) as LC by (apply Rabs_le_inv in DL; lra).
  assert (0 < len3 C) as PC by lra. assert (0 < len3 c) as Pc by lra.
  assert (8 * (S * S) = bpow radix2 (2 * k + 3)) as SJ by (rewrite (sc (2 * k) 3 (S * S) 8 (S2 k) eq_refl); ring).
  assert (fits_pt (2 * k + 3) O) as FO by (rewrite SJ in o1, o2, o3; destruct o1 as (f1 & _ & b1), o2 as (f2 & _ & b2), o3 as (f3 & _ & b3); split; [split; [exact f1|exact b1]|split; split; assumption]).
  destruct (normalized_err (2 * k + 3) O ltac:(lia) FO) as (n & _ & En & _ & UN & _).
  { fold c. apply Rle_trans with (64 * (uu * (S * S))); [|lra]. unfold uu, S. rewrite <- (S2 k). change 64 with (bpow radix2 6). rewrite <- !bpow_plus. apply bpow_le. lia. }
  rewrite En. cbn [bind]. eexists. split; [reflexivity|]. intros x Hx.
  destruct UN as (u1 & u2 & u3). fold c in u1, u2, u3. pose proof (comp_le c) as (c1 & c2 & c3).
  assert (forall v, Rabs v <= len3 c -> Rabs (v / len3 c) <= 1) as QU.
  { intros v Hv. unfold Rdiv. rewrite Rabs_mult, (Rabs_pos_eq (/ len3 c)) by (apply Rlt_le, Rinv_0_lt_compat; exact Pc).
    apply Rmult_le_reg_r with (len3 c); [exact Pc|]. rewrite Rmult_assoc, Rinv_l by lra. lra. }
  pose proof (near_unit _ _ u1 (QU _ c1)) as a1. pose proof (near_unit _ _ u2 (QU _ c2)) as a2. pose proof (near_unit _ _ u3 (QU _ c3)) as a3.
  assert (fits_pt k x) as FX by (destruct Hx as [-> | [-> | ->]]; assumption).
  destruct Hp as (P1 & P2 & P3) eqn:Ep. clear Ep. destruct FX as (X1 & X2 & X3).
  pose proof (lin_ap _ _ _ _ _ _ a1 a2 a3 P1 P2 P3) as Dp. apply opp_ap in Dp.
  pose proof (lin_ap _ _ _ _ _ _ a1 a2 a3 X1 X2 X3) as Dx.
  pose proof (ap_add _ _ _ _ _ _ _ _ (k + 4) Dx Dp) as A.
  rewrite (sc k 4 S 16 eq_refl eq_refl), (sce k 4 3 S 8 ltac:(lia) eq_refl eq_refl) in A. specialize (A ltac:(lra) ltac:(lia)).
  destruct A as (F & E & _). split; [exact F|]. 
  match goal with |- Rabs (val ?w - 0) <= _ => set (W := w) in * end.
  match type of E with Rabs (_ - ?y) <= _ => set (Y := y) in * end.
  assert (Rabs (V64 W - Y) <= 26 * (uu * S)) as E' by (eapply Rle_trans; [exact E|lra]). clear E.
  (* the exact value *)
  set (D := sub3 (val_pt x) P).
  assert (in_cube D (2 * S)) as ID.
  { assert (forall a b, fits k a -> fits k b -> Rabs (val a - val b) <= 2 * S) as G.
    { intros a b [_ A] [_ B]. fold S in A, B. apply Rabs_le_inv in A, B. apply Rabs_le. lra. }
    unfold D, P. split; [|split]; cbn [px py pz sub3 val_pt]; apply G; assumption. }
  assert (dot3 C D = 0) as CD.
  { unfold D, C. destruct Hx as [-> | [-> | ->]]; fold P Q R; unfold dot3, cross3, sub3; cbn [px py pz]; ring. }
  assert (Rabs (dot3 c D) <= 96 * (uu * (S * S) * S)) as CE.
  { replace (dot3 c D) with (dot3 (sub3 c C) D + dot3 C D) by (unfold dot3, sub3; cbn [px py pz]; ring). rewrite CD, Rplus_0_r.
    destruct IC as (i1 & i2 & i3), ID as (d1 & d2 & d3). unfold dot3.
    pose proof (abs_prod _ _ _ _ i1 d1) as p1. pose proof (abs_prod _ _ _ _ i2 d2) as p2. pose proof (abs_prod _ _ _ _ i3 d3) as p3.
    eapply Rle_trans; [apply Rabs_triang|]. eapply Rle_trans; [apply Rplus_le_compat_r, Rabs_triang|]. lra. }
  assert (Rabs (Y - dot3 c D / len3 c) <= 66 * (uu * S)) as EY.
  { replace (Y - dot3 c D / len3 c) with ((V64 (px n) - px c / len3 c) * px D + (V64 (py n) - py c / len3 c) * py D + (V64 (pz n) - pz c / len3 c) * pz D)
      by (unfold Y, D, P, dot3, sub3, val_pt, val; cbn [px py pz]; field; lra).
    destruct ID as (d1 & d2 & d3). destruct u1 as [_ u1], u2 as [_ u2], u3 as [_ u3]. fold uu in u1, u2, u3.
    pose proof (abs_prod _ _ _ _ u1 d1) as p1. pose proof (abs_prod _ _ _ _ u2 d2) as p2. pose proof (abs_prod _ _ _ _ u3 d3) as p3. unfold val in p1, p2, p3.
    eapply Rle_trans; [apply Rabs_triang|]. eapply Rle_trans; [apply Rplus_le_compat_r, Rabs_triang|].
    change (V64 (px O)) with (px c) in p1. change (V64 (py O)) with (py c) in p2. change (V64 (pz O)) with (pz c) in p3. lra. }
  assert (Rabs (dot3 c D / len3 c) <= 96 * (uu * (S * S) * S) / (len3 C / 2)) as EZ.
  { unfold Rdiv at 1. rewrite Rabs_mult, (Rabs_pos_eq (/ len3 c)) by (apply Rlt_le, Rinv_0_lt_compat; exact Pc). unfold Rdiv at 1.
    apply Rmult_le_compat; [apply Rabs_pos|apply Rlt_le, Rinv_0_lt_compat; exact Pc|exact CE|]. apply Rinv_le; [lra|exact LC]. }
  replace (uu * S * (96 * (S * S) / (len3 C / 2) + 92)) with (96 * (uu * (S * S) * S) / (len3 C / 2) + 92 * (uu * S)) by (field; lra).
  unfold val. rewrite Rminus_0_r. replace (V64 W) with ((V64 W - Y) + (Y - dot3 c D / len3 c) + dot3 c D / len3 c) by ring.
  eapply Rle_trans; [apply Rabs_triang|]. eapply Rle_trans; [apply Rplus_le_compat_r, Rabs_triang|]. lra.
Qed.
End Plane.
