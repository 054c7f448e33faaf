(** The containment test of a triangle: points off the plane, and doubles. *)
From Coq Require Import ZArith List Bool Reals Lra Lia Psatz.
From Flocq Require Import Core Relative IEEE754.Binary IEEE754.Bits IEEE754.BinarySingleNaN.
From Verif Require Import Base Num MGeometry MStl MF64 SMesh SGeom SMeasure SErr SErrN SPlaneD SContD LBase LGeom LF64 LF64Arith LF64Ord LErr1 LErr2 LErrEx LPlaneD LPlaneD5.
Import ListNotations.
Open Scope R_scope.

Lemma over_exists p q r x : dot3 (area_vec p q r) (area_vec p q r) <> 0 -> exists a b c h, over p q r a b c h x.
Proof.
  intros N. set (n := area_vec p q r) in *. set (y := sub3 x r). set (e := sub3 p r). set (f := sub3 q r).
  exists (dot3 (cross3 y f) n / dot3 n n), (dot3 (cross3 e y) n / dot3 n n), (1 - dot3 (cross3 y f) n / dot3 n n - dot3 (cross3 e y) n / dot3 n n), (dot3 y n / dot3 n n).
  split; [ring|].
  assert (n = cross3 e f) as Hn. { unfold n, area_vec, e, f, cross3, sub3. cbn [px py pz]. apply P_eq; cbn [px py pz]; ring. }
  assert (forall t, x = add3 r t -> True) by trivial.
  assert (scal3 (dot3 n n) y = add3 (add3 (scal3 (dot3 (cross3 y f) n) e) (scal3 (dot3 (cross3 e y) n) f)) (scal3 (dot3 y n) n)) as K.
  { rewrite Hn. clearbody e f y. destruct e as [e1 e2 e3], f as [f1 f2 f3], y as [y1 y2 y3]. unfold scal3, add3, dot3, cross3. cbn [px py pz]. apply P_eq; cbn [px py pz]; ring. }
  fold n. set (A := dot3 (cross3 y f) n) in *. set (B := dot3 (cross3 e y) n) in *. set (C := dot3 y n) in *. set (D := dot3 n n) in *. clearbody A B C D n. clear Hn.
  destruct x as [x1 x2 x3], p as [p1 p2 p3], q as [q1 q2 q3], r as [r1 r2 r3], n as [n1 n2 n3]. unfold e, f, y, sub3, scal3, add3 in *. cbn [px py pz] in *. injection K as K1 K2 K3.
  apply P_eq; cbn [px py pz].
  - apply Rmult_eq_reg_l with D; [|exact N]. replace (D * x1) with (D * (x1 - r1) + D * r1) by ring. rewrite K1. field. exact N.
  - apply Rmult_eq_reg_l with D; [|exact N]. replace (D * x2) with (D * (x2 - r2) + D * r2) by ring. rewrite K2. field. exact N.
  - apply Rmult_eq_reg_l with D; [|exact N]. replace (D * x3) with (D * (x3 - r3) + D * r3) by ring. rewrite K3. field. exact N.
Qed.

(** The two numbers the test compares with zero. *)
Lemma margins p q r a b c h x : over p q r a b c h x ->
  dot3 (cross3 (sub3 q x) (sub3 r x)) (cross3 (sub3 r x) (sub3 p x)) = margin p q r a b h /\
  dot3 (cross3 (sub3 q x) (sub3 r x)) (cross3 (sub3 p x) (sub3 q x)) = margin p r q a c h.
Proof.
  intros [S E]. unfold margin. set (n := area_vec p q r) in *. set (e := sub3 p r) in *. set (f := sub3 q r) in *.
  assert (n = cross3 e f) as Hn. { unfold n, area_vec, e, f, cross3, sub3. cbn [px py pz]. apply P_eq; cbn [px py pz]; ring. }
  assert (area_vec p r q = scal3 (-1) n) as Hm. { unfold n, area_vec, cross3, sub3, scal3. cbn [px py pz]. apply P_eq; cbn [px py pz]; ring. }
  assert (dot3 e n = 0 /\ dot3 f n = 0) as [O1 O2]. { rewrite Hn. unfold dot3, cross3. cbn [px py pz]. split; ring. }
  assert (sub3 x r = add3 (add3 (scal3 a e) (scal3 b f)) (scal3 h n)) as Y.
  { rewrite E. unfold e, f. clearbody n. clear - S. assert (c = 1 - a - b) as -> by lra. destruct p as [p1 p2 p3], q as [q1 q2 q3], r as [r1 r2 r3], n as [n1 n2 n3]. unfold sub3, add3, scal3. cbn [px py pz]. apply P_eq; cbn [px py pz]; ring. }
  assert (sub3 r x = scal3 (-1) (add3 (add3 (scal3 a e) (scal3 b f)) (scal3 h n))) as R. { rewrite <- Y. unfold sub3, scal3. cbn [px py pz]. apply P_eq; cbn [px py pz]; ring. }
  assert (sub3 p x = sub3 e (add3 (add3 (scal3 a e) (scal3 b f)) (scal3 h n))) as P. { rewrite <- Y. unfold e, sub3. cbn [px py pz]. apply P_eq; cbn [px py pz]; ring. }
  assert (sub3 q x = sub3 f (add3 (add3 (scal3 a e) (scal3 b f)) (scal3 h n))) as Q. { rewrite <- Y. unfold f, sub3. cbn [px py pz]. apply P_eq; cbn [px py pz]; ring. }
  assert (sub3 p q = sub3 e f /\ sub3 r q = scal3 (-1) f) as [Dp Dr]. { unfold e, f, sub3, scal3. cbn [px py pz]. split; apply P_eq; cbn [px py pz]; ring. }
  rewrite Hm, Dp, Dr, R, P, Q. clear Hm Dp Dr R P Q Y E. clearbody e f n.
  assert (cross3 (sub3 f (add3 (add3 (scal3 a e) (scal3 b f)) (scal3 h n))) (scal3 (-1) (add3 (add3 (scal3 a e) (scal3 b f)) (scal3 h n))) = add3 (scal3 a n) (scal3 h (cross3 n f))) as U.
  { rewrite (f_equal (scal3 a) Hn). clear. destruct e as [e1 e2 e3], f as [f1 f2 f3], n as [m1 m2 m3]. unfold sub3, add3, scal3, cross3. cbn [px py pz]. apply P_eq; cbn [px py pz]; ring. }
  assert (cross3 (scal3 (-1) (add3 (add3 (scal3 a e) (scal3 b f)) (scal3 h n))) (sub3 e (add3 (add3 (scal3 a e) (scal3 b f)) (scal3 h n))) = add3 (scal3 b n) (scal3 h (cross3 e n))) as V.
  { rewrite (f_equal (scal3 b) Hn). clear. destruct e as [e1 e2 e3], f as [f1 f2 f3], n as [m1 m2 m3]. unfold sub3, add3, scal3, cross3. cbn [px py pz]. apply P_eq; cbn [px py pz]; ring. }
  assert (cross3 (sub3 e (add3 (add3 (scal3 a e) (scal3 b f)) (scal3 h n))) (sub3 f (add3 (add3 (scal3 a e) (scal3 b f)) (scal3 h n))) = add3 (scal3 c n) (scal3 (- h) (add3 (cross3 e n) (cross3 n f)))) as W.
  { rewrite (f_equal (scal3 c) Hn). assert (c = 1 - a - b) as -> by lra. clear. destruct e as [e1 e2 e3], f as [f1 f2 f3], n as [m1 m2 m3]. unfold sub3, add3, scal3, cross3. cbn [px py pz]. apply P_eq; cbn [px py pz]; ring. }
  rewrite U, V, W. clear U V W Hn. split.
  - transitivity (dot3 n n * (a * b - h * h * dot3 e f) + h * h * (dot3 e n * dot3 f n)); [|rewrite O1; ring]. clear. destruct e as [e1 e2 e3], f as [f1 f2 f3], n as [m1 m2 m3]. unfold dot3, add3, scal3, cross3. cbn [px py pz]. ring.
  - transitivity (dot3 (scal3 (-1) n) (scal3 (-1) n) * (a * c - h * h * dot3 (sub3 e f) (scal3 (-1) f)) + h * h * (dot3 f n * dot3 f n - dot3 e n * dot3 f n)); [|rewrite O1, O2; ring]. clear. destruct e as [e1 e2 e3], f as [f1 f2 f3], n as [m1 m2 m3]. unfold dot3, sub3, add3, scal3, cross3. cbn [px py pz]. ring.
Qed.

(** Over the reals. *)
Lemma contains_over p q r a b c h x : over p q r a b c h x -> tri_contains (mkTri p q r) x = true <-> 0 <= margin p q r a b h /\ 0 <= margin p r q a c h.
Proof.
  intros H. destruct (margins _ _ _ _ _ _ _ _ H) as [E1 E2]. rewrite <- E1, <- E2. unfold tri_contains. cbn [t1 t2 t3].
  change (dot (cross (psub q x) (psub r x)) (cross (psub r x) (psub p x))) with (dot3 (cross3 (sub3 q x) (sub3 r x)) (cross3 (sub3 r x) (sub3 p x))).
  change (dot (cross (psub q x) (psub r x)) (cross (psub p x) (psub q x))) with (dot3 (cross3 (sub3 q x) (sub3 r x)) (cross3 (sub3 p x) (sub3 q x))).
  set (A := dot3 _ (cross3 (sub3 r x) _)). set (B := dot3 _ (cross3 (sub3 p x) _)). change (@n0 R _) with 0. change (@nltb R _) with Rltb. unfold Rltb.
  destruct (Rlt_dec A 0); [split; [discriminate|lra]|]. destruct (Rlt_dec B 0); [split; [discriminate|lra]|]. split; [lra|reflexivity].
Qed.

Section Cont.
Variable k : Z.
Hypothesis Hk : (-200 <= k <= 200)%Z.
Notation S := (bpow radix2 k).
Lemma S4 : bpow radix2 (4 * k) = S * S * (S * S). Proof. rewrite <- !bpow_plus. f_equal. lia. Qed.

Lemma cross_ap (p q r : Point3 f64) : fits_pt k p -> fits_pt k q -> fits_pt k r ->
  ap_pt (cross (psub p r) (psub q r)) (cross3 (sub3 (val_pt p) (val_pt r)) (sub3 (val_pt q) (val_pt r))) (16 * (uu * (S * S))) (8 * (S * S)) /\
  in_cube (cross3 (sub3 (val_pt p) (val_pt r)) (sub3 (val_pt q) (val_pt r))) (8 * (S * S)).
Proof.
  destruct p as [p1 p2 p3], q as [q1 q2 q3], r as [r1 r2 r3]. intros (P1 & P2 & P3) (Q1 & Q2 & Q3) (R1 & R2 & R3). cbn [px py pz] in *.
  destruct (diff_ap k Hk _ _ P1 R1) as [a1 b1], (diff_ap k Hk _ _ P2 R2) as [a2 b2], (diff_ap k Hk _ _ P3 R3) as [a3 b3],
    (diff_ap k Hk _ _ Q1 R1) as [a4 b4], (diff_ap k Hk _ _ Q2 R2) as [a5 b5], (diff_ap k Hk _ _ Q3 R3) as [a6 b6].
  destruct (minor_ap k Hk _ _ _ _ _ _ _ _ a2 a6 a3 a5 b2 b6 b3 b5) as [m1 n1], (minor_ap k Hk _ _ _ _ _ _ _ _ a3 a4 a1 a6 b3 b4 b1 b6) as [m2 n2],
    (minor_ap k Hk _ _ _ _ _ _ _ _ a1 a5 a2 a4 b1 b5 b2 b4) as [m3 n3].
  split.
  - split; [exact m1|]. split; [exact m2|exact m3].
  - split; [exact n1|]. split; [exact n2|exact n3].
Qed.
Lemma cross_dot_ap (u v : Point3 f64) (U V : pt3) : ap_pt u U (16 * (uu * (S * S))) (8 * (S * S)) -> ap_pt v V (16 * (uu * (S * S))) (8 * (S * S)) -> in_cube U (8 * (S * S)) -> in_cube V (8 * (S * S)) ->
  ap (dot u v) (dot3 U V) (1056 * (uu * (S * S * (S * S)))) (256 * (S * S * (S * S))).
Proof.
  intros (u1 & u2 & u3) (v1 & v2 & v3) _ (c1 & c2 & c3). pose proof (bpow_gt_0 radix2 k) as SP. pose proof uu_pos as UP. pose proof S4 as E4. set (Q := S * S * (S * S)) in *.
  assert (0 < Q) as QP by (unfold Q; repeat apply Rmult_lt_0_compat; assumption).
  assert (forall c n, bpow radix2 c = n -> bpow radix2 (4 * k + c) = n * Q) as B by (intros c n <-; rewrite bpow_plus, E4; ring).
  assert (forall c d n, (c - 54 = d - 53)%Z -> bpow radix2 d = n -> bpow radix2 (4 * k + c - 54) = n * (uu * Q)) as Be.
  { intros c d n H <-. replace (4 * k + c - 54)%Z with (4 * k + d + (-53))%Z by lia. rewrite !bpow_plus, E4. change (bpow radix2 (-53)) with uu. ring. }
  assert (forall a A b B', ap a A (16 * (uu * (S * S))) (8 * (S * S)) -> ap b B' (16 * (uu * (S * S))) (8 * (S * S)) -> Rabs B' <= 8 * (S * S) -> ap (b64_mult mode_NE a b) (A * B') (288 * (uu * Q)) (64 * Q)) as M.
  { intros a A b B' Ha Hb HB. eapply ap_weak; [apply (ap_mul a b _ _ _ _ _ _ _ (4 * k + 6) Ha Hb HB); [|lia]| |].
    - rewrite (B 6%Z 64) by reflexivity. unfold Q. lra.
    - rewrite (Be 6%Z 5%Z 32) by (reflexivity || lia). unfold Q. lra.
    - rewrite (B 6%Z 64) by reflexivity. lra. }
  pose proof (M _ _ _ _ u1 v1 c1) as M1. pose proof (M _ _ _ _ u2 v2 c2) as M2. pose proof (M _ _ _ _ u3 v3 c3) as M3.
  assert (ap (b64_plus mode_NE (b64_mult mode_NE (px u) (px v)) (b64_mult mode_NE (py u) (py v))) (px U * px V + py U * py V) (640 * (uu * Q)) (128 * Q)) as A1.
  { eapply ap_weak; [apply (ap_add _ _ _ _ _ _ _ _ (4 * k + 7) M1 M2); [|lia]| |].
    - rewrite (B 7%Z 128) by reflexivity. lra.
    - rewrite (Be 7%Z 6%Z 64) by (reflexivity || lia). lra.
    - rewrite (B 7%Z 128) by reflexivity. lra. }
  eapply ap_weak; [apply (ap_add _ _ _ _ _ _ _ _ (4 * k + 8) A1 M3); [|lia]| |].
  - rewrite (B 8%Z 256) by reflexivity. lra.
  - rewrite (Be 8%Z 7%Z 128) by (reflexivity || lia). assert (0 < uu * Q) by (apply Rmult_lt_0_compat; assumption). lra.
  - rewrite (B 8%Z 256) by reflexivity. lra.
Qed.

Lemma contains_doubles (t : Triangle3 f64) (x : Point3 f64) a b c h : fits_tri k t -> fits_pt k x ->
  let p := val_pt (t1 t) in let q := val_pt (t2 t) in let r := val_pt (t3 t) in let e := bpow radix2 (4 * k - 42) in over p q r a b c h (val_pt x) ->
  (e < margin p q r a b h -> e < margin p r q a c h -> tri_contains t x = true) /\ (tri_contains t x = true -> - e < margin p q r a b h /\ - e < margin p r q a c h).
Proof.
  intros (T1 & T2 & T3) Hx p q r e H. destruct (margins _ _ _ _ _ _ _ _ H) as [E1 E2]. rewrite <- E1, <- E2. clear E1 E2 H.
  destruct (cross_ap _ _ _ T2 T3 Hx) as [U UC]. destruct (cross_ap _ _ _ T3 T1 Hx) as [V VC]. destruct (cross_ap _ _ _ T1 T2 Hx) as [W WC].
  destruct (cross_dot_ap _ _ _ _ U V UC VC) as (F1 & A1 & _). destruct (cross_dot_ap _ _ _ _ U W UC WC) as (F2 & A2 & _).
  assert (e = 2048 * (uu * (S * S * (S * S)))) as Ee. { unfold e. replace (4 * k - 42)%Z with (4 * k + (-53) + 11)%Z by lia. rewrite !bpow_plus, S4. change (bpow radix2 (-53)) with uu. change (bpow radix2 11) with 2048. rewrite <- !bpow_plus. ring. }
  assert (0 < uu * (S * S * (S * S))) as EP by (pose proof uu_pos; pose proof (bpow_gt_0 radix2 k); repeat apply Rmult_lt_0_compat; assumption).
  unfold tri_contains. change (@nltb f64 F64Num) with f64_ltb. fold p q r in A1, A2.
  set (P := dot3 (cross3 (sub3 q (val_pt x)) (sub3 r (val_pt x))) (cross3 (sub3 r (val_pt x)) (sub3 p (val_pt x)))) in *. set (Q := dot3 (cross3 (sub3 q (val_pt x)) (sub3 r (val_pt x))) (cross3 (sub3 p (val_pt x)) (sub3 q (val_pt x)))) in *.
  set (d1 := dot (cross (psub (t2 t) x) (psub (t3 t) x)) (cross (psub (t3 t) x) (psub (t1 t) x))) in *. set (d2 := dot (cross (psub (t2 t) x) (psub (t3 t) x)) (cross (psub (t1 t) x) (psub (t2 t) x))) in *.
  rewrite Ee. clearbody d1 d2 P Q. apply Rabs_le_inv in A1, A2.
  pose proof (ltb_fin d1 n0 F1 F0) as L1. pose proof (ltb_fin d2 n0 F2 F0) as L2. rewrite n0_val in L1, L2.
  destruct (f64_ltb d1 n0) eqn:Q1; [assert (V64 d1 < 0) by (apply L1; reflexivity); split; [lra|discriminate]|].
  assert (0 <= V64 d1) by (apply Rnot_lt_le; intros G; apply L1 in G; discriminate).
  destruct (f64_ltb d2 n0) eqn:Q2; [assert (V64 d2 < 0) by (apply L2; reflexivity); split; [lra|discriminate]|].
  assert (0 <= V64 d2) by (apply Rnot_lt_le; intros G; apply L2 in G; discriminate). split; [reflexivity|intros _; lra].
Qed.
End Cont.

(** A quarter above the triangle (0, 0, 0), (1, 0, 0), (0, 1, 0): over its centre accepted, near the first corner rejected. *)
Lemma above_case : over O3 (mkP 1 0 0) (mkP 0 1 0) (1 / 3) (1 / 3) (1 / 3) (1 / 4) (mkP (1 / 3) (1 / 3) (1 / 4)) /\ over O3 (mkP 1 0 0) (mkP 0 1 0) (9 / 10) (1 / 20) (1 / 20) (1 / 4) (mkP (1 / 20) (1 / 20) (1 / 4)) /\
  tri_contains (mkTri O3 (mkP 1 0 0) (mkP 0 1 0)) (mkP (1 / 3) (1 / 3) (1 / 4)) = true /\ tri_contains (mkTri O3 (mkP 1 0 0) (mkP 0 1 0)) (mkP (1 / 20) (1 / 20) (1 / 4)) = false.
Proof.
  assert (over O3 (mkP 1 0 0) (mkP 0 1 0) (1 / 3) (1 / 3) (1 / 3) (1 / 4) (mkP (1 / 3) (1 / 3) (1 / 4))) as A by (split; [lra|]; unfold area_vec, cross3, sub3, add3, scal3, O3; cbn [px py pz]; apply P_eq; cbn [px py pz]; lra).
  assert (over O3 (mkP 1 0 0) (mkP 0 1 0) (9 / 10) (1 / 20) (1 / 20) (1 / 4) (mkP (1 / 20) (1 / 20) (1 / 4))) as B by (split; [lra|]; unfold area_vec, cross3, sub3, add3, scal3, O3; cbn [px py pz]; apply P_eq; cbn [px py pz]; lra).
  split; [exact A|]. split; [exact B|]. split.
  - apply (contains_over _ _ _ _ _ _ _ _ A). unfold margin, area_vec, dot3, cross3, sub3, O3. cbn [px py pz]. lra.
  - destruct (tri_contains _ (mkP (1 / 20) _ _)) eqn:E; [|reflexivity]. apply (contains_over _ _ _ _ _ _ _ _ B) in E. unfold margin, area_vec, dot3, cross3, sub3, O3 in E. cbn [px py pz] in E. lra.
Qed.
Lemma contains_case : let t := mkTri (dp 0 0 0) (dp 4 0 0) (dp 0 4 0) in let p := val_pt (t1 t) in let q := val_pt (t2 t) in let r := val_pt (t3 t) in
  fits_tri 2 t /\ fits_pt 2 (dp 1 1 0) /\ over p q r (1 / 2) (1 / 4) (1 / 4) 0 (val_pt (dp 1 1 0)) /\ bpow radix2 (4 * 2 - 42) < margin p q r (1 / 2) (1 / 4) 0 /\ bpow radix2 (4 * 2 - 42) < margin p r q (1 / 2) (1 / 4) 0.
Proof.
  assert (forall z, Rabs (IZR z) = IZR (Z.abs z)) as Az by (intros z; rewrite abs_IZR; reflexivity).
  assert (forall k n z, bpow radix2 k = IZR n -> (Z.abs z <= n)%Z -> (n <= 2 ^ 53)%Z -> fits k (f64_ofZ z)) as G by (intros k n z E H H'; apply LPlaneD5.vz_fits; [lia|rewrite Az, E; apply IZR_le; exact H]).
  assert (forall x y z, (Z.abs x <= 4)%Z -> (Z.abs y <= 4)%Z -> (Z.abs z <= 4)%Z -> fits_pt 2 (dp x y z)) as B by (intros x y z X Y Z; repeat apply conj; cbn [dp px py pz]; (apply (G 2%Z 4%Z); [reflexivity|lia|lia])).
  cbv zeta. cbn [t1 t2 t3]. split; [repeat apply conj; apply B; lia|]. split; [apply B; lia|].
  assert (forall x y z, (Z.abs x <= 4)%Z -> (Z.abs y <= 4)%Z -> (Z.abs z <= 4)%Z -> val_pt (dp x y z) = mkP (IZR x) (IZR y) (IZR z)) as V.
  { intros x y z X Y Z. unfold val_pt, dp. cbn [px py pz]. f_equal; apply (ofZ_ok _); lia. }
  rewrite !V by lia. replace (bpow radix2 (4 * 2 - 42)) with (/ 17179869184) by reflexivity.
  unfold over, margin, area_vec, dot3, cross3, sub3, add3, scal3. cbn [px py pz]. repeat apply conj; try lra. apply P_eq; cbn [px py pz]; lra.
Qed.
