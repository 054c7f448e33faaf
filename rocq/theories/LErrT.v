(** Rounding errors of transforms of doubles. *)
From Coq Require Import ZArith List Bool Reals Lra Lia Psatz.
From Flocq Require Import Core Relative IEEE754.Binary IEEE754.Bits IEEE754.BinarySingleNaN.
From Verif Require Import Base Num MGeometry MTransform MStl MF64 SMesh SGeom SMeasure SErr SErrN SErrT LBase LGeom LTransform LF64 LF64Arith LErr1 LErr2 LF64Ord LErr3 LErr4 LErr5 LErr6 LErrEx.
Import ListNotations.
Open Scope R_scope.

Section Scaled.
Variable k : Z.
Hypothesis Hk : (-900 <= k <= 900)%Z.
Let S : R := bpow radix2 k.
Let S_pos : 0 < S. Proof. apply bpow_gt_0. Qed.
Let US_pos : 0 < uu * S. Proof. apply Rmult_lt_0_compat; [exact uu_pos|exact S_pos]. Qed.
(** Magnitude at most 2^i S, error at most [c] 2^-53 S. *)
Definition aps (r : f64) (x c : R) (i : Z) : Prop := ap r x (c * (uu * S)) (bpow radix2 i * S).

Lemma bS i : bpow radix2 (k + i) = bpow radix2 i * S. Proof. unfold S. rewrite <- bpow_plus. f_equal. lia. Qed.
Lemma bSe i : bpow radix2 (k + i - 54) = bpow radix2 i / 2 * (uu * S).
Proof. unfold S, uu. replace (bpow radix2 i / 2) with (bpow radix2 (i + -1)) by (rewrite (bpow_plus radix2 i (-1)); change (bpow radix2 (-1)) with (/ 2); reflexivity).
  rewrite <- !bpow_plus. f_equal. lia. Qed.
Lemma aps_fits x : fits k x -> aps x (V64 x) 0 0.
Proof. intros H. eapply ap_weak; [apply (ap_exact k x H)| |]; fold S; [lra|]. change (bpow radix2 0) with 1. lra. Qed.
Lemma aps_add x y X Y c d i j n : aps x X c i -> aps y Y d j -> bpow radix2 i + bpow radix2 j <= bpow radix2 n -> (0 <= n <= 20)%Z ->
  aps (b64_plus mode_NE x y) (X + Y) (c + d + bpow radix2 n / 2) n.
Proof.
  intros Hx Hy H Hn. eapply ap_weak; [apply (ap_add x y _ _ _ _ _ _ (k + n) Hx Hy); [|lia]| |].
  - rewrite bS. rewrite <- Rmult_plus_distr_r. apply Rmult_le_compat_r; [lra|exact H].
  - rewrite bSe. lra.
  - rewrite bS. lra.
Qed.
Lemma aps_sub x y X Y c d i j n : aps x X c i -> aps y Y d j -> bpow radix2 i + bpow radix2 j <= bpow radix2 n -> (0 <= n <= 20)%Z ->
  aps (b64_minus mode_NE x y) (X - Y) (c + d + bpow radix2 n / 2) n.
Proof.
  intros Hx Hy H Hn. eapply ap_weak; [apply (ap_sub x y _ _ _ _ _ _ (k + n) Hx Hy); [|lia]| |].
  - rewrite bS. rewrite <- Rmult_plus_distr_r. apply Rmult_le_compat_r; [lra|exact H].
  - rewrite bSe. lra.
  - rewrite bS. lra.
Qed.
(** A factor of magnitude at most 2^j, known up to [d] 2^-53. *)
Lemma aps_mul x y X Y c d i j : aps x X c i -> ap y Y (d * uu) (bpow radix2 j) -> Rabs Y <= bpow radix2 j -> (0 <= i <= 20)%Z -> (0 <= j <= 20)%Z ->
  aps (b64_mult mode_NE x y) (X * Y) (bpow radix2 i * d + bpow radix2 j * c + bpow radix2 (i + j) / 2) (i + j).
Proof.
  intros Hx Hy HY Hi Hj. eapply ap_weak; [apply (ap_mul x y _ _ _ _ _ _ _ (k + (i + j)) Hx Hy HY); [|lia]| |].
  - rewrite bS, bpow_plus. right. ring.
  - rewrite bSe. right. ring.
  - rewrite bS. lra.
Qed.
Lemma aps_close x X c i e : aps x X c i -> c <= e -> close_to x X (e * bpow radix2 (k - 53)).
Proof.
  intros (F & E & _) H. split; [exact F|]. eapply Rle_trans; [exact E|]. replace (bpow radix2 (k - 53)) with (uu * S) by (unfold uu, S; rewrite <- bpow_plus; f_equal; lia).
  apply Rmult_le_compat_r; lra.
Qed.
Lemma aps_mono x X c i c' : aps x X c i -> c <= c' -> aps x X c' i.
Proof. intros H L. eapply ap_weak; [exact H| |lra]. apply Rmult_le_compat_r; lra. Qed.
End Scaled.

Lemma stored_ap d x y : stored (d * uu) x y -> ap x y (d * uu) (bpow radix2 0).
Proof. intros [[F B] E]. split; [exact F|]. split; [exact E|exact B]. Qed.
Lemma cos_1 a : Rabs (cos a) <= bpow radix2 0. Proof. change (bpow radix2 0) with 1. apply Rabs_le. apply COS_bound. Qed.
Lemma sin_1 a : Rabs (sin a) <= bpow radix2 0. Proof. change (bpow radix2 0) with 1. apply Rabs_le. apply SIN_bound. Qed.

Ltac pows := change (bpow radix2 0) with 1 in *; change (bpow radix2 1) with 2 in *; change (bpow radix2 2) with 4 in *; change (bpow radix2 3) with 8 in *; change (bpow radix2 4) with 16 in *; change (bpow radix2 5) with 32 in *; change (bpow radix2 6) with 64 in *; change (bpow radix2 7) with 128 in *.

Section Moves.
Variable k : Z.
Hypothesis Hk : (-900 <= k <= 900)%Z.

Lemma translation_err (t p : Point3 f64) : fits_pt k t -> fits_pt k p -> close_pt (translation t p) (add3 (val_pt p) (val_pt t)) (bpow radix2 (k - 53)).
Proof.
  intros (T1 & T2 & T3) (P1 & P2 & P3).
  assert (forall x y, fits k x -> fits k y -> close_to (b64_plus mode_NE x y) (V64 x + V64 y) (bpow radix2 (k - 53))) as A.
  { intros x y Hx Hy. rewrite <- (Rmult_1_l (bpow radix2 (k - 53))). eapply (aps_close k); [eapply (aps_add k Hk _ _ _ _ _ _ _ _ 1 (aps_fits k x Hx) (aps_fits k y Hy))|]; [pows; lra|lia|pows; lra]. }
  split; [|split]; apply A; assumption.
Qed.

Lemma there_back (t t' p : Point3 f64) : fits_pt k t -> fits_pt k t' -> fits_pt k p -> opposite t t' ->
  close_pt (translation t' (translation t p)) (val_pt p) (3 * bpow radix2 (k - 53)).
Proof.
  intros (T1 & T2 & T3) (U1 & U2 & U3) (P1 & P2 & P3) O. injection O as O1 O2 O3.
  assert (forall x y y', fits k x -> fits k y -> fits k y' -> V64 y' = 0 - V64 y -> close_to (b64_plus mode_NE (b64_plus mode_NE x y) y') (V64 x) (3 * bpow radix2 (k - 53))) as A.
  { intros x y y' Hx Hy Hy' E. replace (V64 x) with (V64 x + V64 y + V64 y') by (rewrite E; ring).
    eapply (aps_close k); [eapply (aps_add k Hk _ _ _ _ _ _ _ _ 2 (aps_add k Hk _ _ _ _ _ _ _ _ 1 (aps_fits k x Hx) (aps_fits k y Hy) _ _) (aps_fits k y' Hy'))|]; [pows; lra|lia|pows; lra].
    Unshelve. pows; lra. lia. }
  split; [|split]; eapply A; eassumption.
Qed.

(** One row of a matrix. *)
Lemma entry_ap d x y : close_to x y (d * uu) -> d * uu <= 1 -> Rabs y <= 1 -> ap x y (d * uu) (bpow radix2 1).
Proof. intros [F E] Hd Hy. split; [exact F|]. split; [exact E|]. change (bpow radix2 1) with 2. unfold val in E. apply Rabs_le_inv in E, Hy. apply Rabs_le. lra. Qed.
Lemma row_err d (x y z a b c : f64) A B C : fits k x -> fits k y -> fits k z -> d * uu <= 1 -> close_to a A (d * uu) -> close_to b B (d * uu) -> close_to c C (d * uu) ->
  Rabs A <= 1 -> Rabs B <= 1 -> Rabs C <= 1 ->
  close_to (b64_plus mode_NE (b64_plus mode_NE (b64_mult mode_NE x a) (b64_mult mode_NE y b)) (b64_mult mode_NE z c)) (A * V64 x + B * V64 y + C * V64 z) ((3 * d + 9) * bpow radix2 (k - 53)).
Proof.
  intros Hx Hy Hz Hd Ha Hb Hc LA LB LC. assert (forall r, Rabs r <= 1 -> Rabs r <= bpow radix2 1) as W by (intros; pows; lra).
  pose proof (aps_mul k Hk x a _ _ 0 d 0 1 (aps_fits k x Hx) (entry_ap _ _ _ Ha Hd LA) (W _ LA) ltac:(lia) ltac:(lia)) as m1.
  pose proof (aps_mul k Hk y b _ _ 0 d 0 1 (aps_fits k y Hy) (entry_ap _ _ _ Hb Hd LB) (W _ LB) ltac:(lia) ltac:(lia)) as m2.
  pose proof (aps_mul k Hk z c _ _ 0 d 0 1 (aps_fits k z Hz) (entry_ap _ _ _ Hc Hd LC) (W _ LC) ltac:(lia) ltac:(lia)) as m3.
  change (0 + 1)%Z with 1%Z in *.
  replace (A * V64 x + B * V64 y + C * V64 z) with (V64 x * A + V64 y * B + V64 z * C) by ring.
  eapply (aps_close k); [eapply (aps_add k Hk _ _ _ _ _ _ _ _ 3 (aps_add k Hk _ _ _ _ _ _ _ _ 2 m1 m2 _ _) m3)|]; [pows; lra|lia|pows; lra].
  Unshelve. pows; lra. lia.
Qed.
Lemma matrix_err d (m : Mat f64) u v w p : d * bpow radix2 (-53) <= 1 -> stored_matrix (d * bpow radix2 (-53)) m u v w -> in_cube u 1 -> in_cube v 1 -> in_cube w 1 -> fits_pt k p ->
  close_pt (mat_apply m p) (rows u v w (val_pt p)) ((3 * d + 9) * bpow radix2 (k - 53)).
Proof.
  intros Hd ((a1 & a2 & a3) & (b1 & b2 & b3) & (c1 & c2 & c3)) (u1 & u2 & u3) (v1 & v2 & v3) (w1 & w2 & w3) (P1 & P2 & P3).
  split; [|split]; apply row_err; assumption.
Qed.

Lemma euler_err d (e : Euler f64) a b c p : 0 <= d -> stored_euler (d * bpow radix2 (-53)) e a b c -> fits_pt k p ->
  close_pt (euler_apply e p) (exact_euler a b c (val_pt p)) ((13 * d + 15) * bpow radix2 (k - 53)).
Proof.
  intros Hd ((A1 & A2) & (B1 & B2) & (C1 & C2)) (P1 & P2 & P3). fold uu in A1, A2, B1, B2, C1, C2. apply stored_ap in A1, A2, B1, B2, C1, C2.
  pose proof (cos_1 a) as ca. pose proof (sin_1 a) as sa. pose proof (cos_1 b) as cb. pose proof (sin_1 b) as sb. pose proof (cos_1 c) as cc. pose proof (sin_1 c) as sc.
  destruct p as [x y z]. cbn [px py pz] in *. apply (aps_fits k) in P1, P2, P3.
  assert (forall r s R S c d i j n (H : aps k r R c i) (H' : aps k s S d j) e, bpow radix2 i + bpow radix2 j <= bpow radix2 n -> (0 <= n <= 20)%Z -> c + d + bpow radix2 n / 2 <= e -> aps k (b64_plus mode_NE r s) (R + S) e n) as add.
  { intros. eapply aps_mono; [eapply (aps_add k Hk); eassumption|assumption]. }
  assert (forall r s R S c d i j n (H : aps k r R c i) (H' : aps k s S d j) e, bpow radix2 i + bpow radix2 j <= bpow radix2 n -> (0 <= n <= 20)%Z -> c + d + bpow radix2 n / 2 <= e -> aps k (b64_minus mode_NE r s) (R - S) e n) as sub.
  { intros. eapply aps_mono; [eapply (aps_sub k Hk); eassumption|assumption]. }
  assert (forall r s R S c i (H : aps k r R c i) (H' : ap s S (d * uu) (bpow radix2 0)) e, Rabs S <= bpow radix2 0 -> (0 <= i <= 20)%Z -> bpow radix2 i * (d + 0.5) + c <= e -> aps k (b64_mult mode_NE r s) (R * S) e i) as mul.
  { intros r s R S c0 i H H' e0 HS Hi L. pose proof (aps_mul k Hk _ _ _ _ _ _ _ _ H H' HS Hi ltac:(lia)) as M. rewrite Z.add_0_r in M. eapply aps_mono; [exact M|]. pows. lra. }
  assert (aps k (b64_plus mode_NE (b64_mult mode_NE x (eyc e)) (b64_mult mode_NE z (eys e))) (V64 x * cos a + V64 z * sin a) (2 * d + 2) 1) as X1.
  { eapply add; [apply (mul _ _ _ _ _ _ P1 A1 (d + 0.5) ca)|apply (mul _ _ _ _ _ _ P3 A2 (d + 0.5) sa)| | |]; first [lia | pows; lra]. }
  assert (aps k (b64_minus mode_NE (b64_mult mode_NE z (eyc e)) (b64_mult mode_NE x (eys e))) (V64 z * cos a - V64 x * sin a) (2 * d + 2) 1) as Z1.
  { eapply sub; [apply (mul _ _ _ _ _ _ P3 A1 (d + 0.5) ca)|apply (mul _ _ _ _ _ _ P1 A2 (d + 0.5) sa)| | |]; first [lia | pows; lra]. }
  set (x1 := b64_plus mode_NE _ _) in X1. set (z1 := b64_minus mode_NE _ _) in Z1.
  assert (aps k (b64_minus mode_NE (b64_mult mode_NE z1 (eps e)) (b64_mult mode_NE y (epc e))) ((V64 z * cos a - V64 x * sin a) * sin b - V64 y * cos b) (5 * d + 5.5) 2) as Y2.
  { eapply sub; [apply (mul _ _ _ _ _ _ Z1 B2 (4 * d + 3) sb)|apply (mul _ _ _ _ _ _ P2 B1 (d + 0.5) cb)| | |]; first [lia | pows; lra]. }
  assert (aps k (b64_plus mode_NE (b64_mult mode_NE z1 (epc e)) (b64_mult mode_NE y (eps e))) ((V64 z * cos a - V64 x * sin a) * cos b + V64 y * sin b) (5 * d + 5.5) 2) as Z2.
  { eapply add; [apply (mul _ _ _ _ _ _ Z1 B1 (4 * d + 3) cb)|apply (mul _ _ _ _ _ _ P2 B2 (d + 0.5) sb)| | |]; first [lia | pows; lra]. }
  set (y2 := b64_minus mode_NE _ _) in Y2.
  split; [|split].
  - apply (aps_close k _ _ (13 * d + 14.5) 3); [eapply add; [apply (mul _ _ _ _ _ _ X1 C1 (4 * d + 3) cc)|apply (mul _ _ _ _ _ _ Y2 C2 (9 * d + 7.5) sc)| | |]|]; first [lia | pows; lra].
  - apply (aps_close k _ _ (13 * d + 14.5) 3); [eapply sub; [apply (mul _ _ _ _ _ _ Y2 C1 (9 * d + 7.5) cc)|apply (mul _ _ _ _ _ _ X1 C2 (4 * d + 3) sc)| | |]|]; first [lia | pows; lra].
  - eapply (aps_close k); [exact Z2|lra].
Qed.
End Moves.

(** Distances after an almost exact isometry. *)
Lemma moved_dist (f : Point3 f64 -> Point3 f64) (g : pt3 -> pt3) e p q : isometry g -> close_pt (f p) (g (val_pt p)) e -> close_pt (f q) (g (val_pt q)) e ->
  Rabs (dist3 (val_pt (f p)) (val_pt (f q)) - dist3 (val_pt p) (val_pt q)) <= 3.5 * e.
Proof.
  intros I ((_ & p1) & (_ & p2) & (_ & p3)) ((_ & q1) & (_ & q2) & (_ & q3)). rewrite <- (I (val_pt p) (val_pt q)). unfold dist3.
  eapply Rle_trans; [apply len3_lip|]. assert (0 <= e) as E by (eapply Rle_trans; [apply Rabs_pos|exact p1]).
  replace (3.5 * e) with (1.75 * (2 * e)) by lra. apply len3_in_cube; [|lra].
  set (P := g (val_pt p)) in *. set (Q := g (val_pt q)) in *. clearbody P Q. apply Rabs_le_inv in p1, p2, p3, q1, q2, q3.
  unfold in_cube, sub3, val_pt. cbn [px py pz]. repeat split; apply Rabs_le; lra.
Qed.

Lemma exact_euler_iso a b c : isometry (exact_euler a b c).
Proof.
  pose proof (cs1 a) as Y. pose proof (cs1 b) as P. pose proof (cs1 c) as Q. intros p q. unfold exact_euler.
  set (cy := cos a) in *. set (sy := sin a) in *. set (cp := cos b) in *. set (sp := sin b) in *. set (cr := cos c) in *. set (sr := sin c) in *. clearbody cy sy cp sp cr sr.
  assert (sy * sy = 1 - cy * cy) as Y' by lra. assert (sp * sp = 1 - cp * cp) as P' by lra. assert (sr * sr = 1 - cr * cr) as Q' by lra.
  unfold dist3, len3. f_equal. cbv zeta. unfold dot3, sub3. cbn [px py pz].
  set (x := px p - px q). set (y := py p - py q). set (z := pz p - pz q).
  assert (px p = x + px q) as -> by (unfold x; ring). assert (py p = y + py q) as -> by (unfold y; ring). assert (pz p = z + pz q) as -> by (unfold z; ring).
  clearbody x y z. ring [Y' P' Q'].
Qed.
Lemma euler_dist k d e a b c p q : (-900 <= k <= 900)%Z -> 0 <= d -> stored_euler (d * bpow radix2 (-53)) e a b c -> fits_pt k p -> fits_pt k q ->
  Rabs (dist3 (val_pt (euler_apply e p)) (val_pt (euler_apply e q)) - dist3 (val_pt p) (val_pt q)) <= 3.5 * ((13 * d + 15) * bpow radix2 (k - 53)).
Proof.
  intros Hk Hd H Hp Hq.
  exact (moved_dist (euler_apply e) (exact_euler a b c) _ p q (exact_euler_iso a b c) (euler_err k Hk d e a b c p Hd H Hp) (euler_err k Hk d e a b c q Hd H Hq)).
Qed.

Lemma iso_rows u v w : isometry (rows u v w) -> in_cube u 1 /\ in_cube v 1 /\ in_cube w 1.
Proof.
  intros I.
  assert (forall e, dot3 (rows u v w e) (rows u v w e) = dot3 e e) as D.
  { intros e. pose proof (I e O3) as H. unfold dist3 in H. replace (rows u v w O3) with O3 in H by (unfold rows, dot3, O3; cbn [px py pz]; f_equal; ring).
    replace (sub3 (rows u v w e) O3) with (rows u v w e) in H by (unfold rows, sub3, O3; cbn [px py pz]; f_equal; ring).
    replace (sub3 e O3) with e in H by (destruct e; pring). rewrite <- !len3_sq, H. reflexivity. }
  pose proof (D (mkP 1 0 0)) as d1. pose proof (D (mkP 0 1 0)) as d2. pose proof (D (mkP 0 0 1)) as d3. clear D.
  unfold rows, dot3 in d1, d2, d3. cbn [px py pz] in d1, d2, d3. destruct u as [u1 u2 u3], v as [v1 v2 v3], w as [w1 w2 w3]. cbn [px py pz] in *. clear I.
  assert (forall x y z, x * x + y * y + z * z = 1 -> Rabs x <= 1) as A. { intros x y z H. apply Rabs_le. nra. }
  assert (u1 * u1 + v1 * v1 + w1 * w1 = 1) as C1 by lra. assert (u2 * u2 + v2 * v2 + w2 * w2 = 1) as C2 by lra. assert (u3 * u3 + v3 * v3 + w3 * w3 = 1) as C3 by lra.
  clear d1 d2 d3. unfold in_cube. cbn [px py pz].
  repeat split; match goal with |- Rabs ?x <= 1 => match goal with
    | H : x * x + ?y * ?y + ?z * ?z = 1 |- _ => apply (A x y z); lra
    | H : ?y * ?y + x * x + ?z * ?z = 1 |- _ => apply (A x y z); lra
    | H : ?y * ?y + ?z * ?z + x * x = 1 |- _ => apply (A x y z); lra end end.
Qed.
Lemma matrix_iso k d m u v w p q : (-900 <= k <= 900)%Z -> isometry (rows u v w) -> d * bpow radix2 (-53) <= 1 -> stored_matrix (d * bpow radix2 (-53)) m u v w -> fits_pt k p -> fits_pt k q ->
  close_pt (mat_apply m p) (rows u v w (val_pt p)) ((3 * d + 9) * bpow radix2 (k - 53)) /\
  Rabs (dist3 (val_pt (mat_apply m p)) (val_pt (mat_apply m q)) - dist3 (val_pt p) (val_pt q)) <= 3.5 * ((3 * d + 9) * bpow radix2 (k - 53)).
Proof.
  intros Hk I Hd H Hp Hq. destruct (iso_rows u v w I) as (U & V & W). split; [exact (matrix_err k Hk d m u v w p Hd H U V W Hp)|].
  exact (moved_dist (mat_apply m) (rows u v w) _ p q I (matrix_err k Hk d m u v w p Hd H U V W Hp) (matrix_err k Hk d m u v w q Hd H U V W Hq)).
Qed.

Lemma scale_err k j (sx sy sz : f64) (p : Point3 f64) : (-400 <= k <= 400)%Z -> (-400 <= j <= 400)%Z -> fits j sx -> fits j sy -> fits j sz -> fits_pt k p ->
  close_pt (scale sx sy sz p) (mkP (val (px p) * val sx) (val (py p) * val sy) (val (pz p) * val sz)) (bpow radix2 (k + j - 54)).
Proof.
  intros Hk Hj S1 S2 S3 (P1 & P2 & P3).
  assert (forall x y, fits k x -> fits j y -> close_to (b64_mult mode_NE x y) (V64 x * V64 y) (bpow radix2 (k + j - 54))) as A.
  { intros x y Hx Hy. destruct (ap_mul x y _ _ _ _ _ _ (bpow radix2 j) (k + j) (ap_exact k x Hx) (ap_exact j y Hy)) as (F & E & _).
    - destruct Hy as [_ Hy]. exact Hy.
    - rewrite bpow_plus. lra.
    - lia.
    - split; [exact F|]. rewrite !Rmult_0_r, !Rplus_0_l in E. exact E. }
  split; [|split]; apply A; assumption.
Qed.

(** ** Quaternions *)
Lemma aps_unit r x c i : aps 0 r x c i -> ap r x (c * uu) (bpow radix2 i).
Proof. intros H. unfold aps in H. change (bpow radix2 0) with 1 in H. rewrite !Rmult_1_r in H. exact H. Qed.
Lemma ap_unit x y X Y : ap x X 0 1 -> ap y Y 0 1 -> Rabs Y <= 1 -> aps 0 (b64_mult mode_NE x y) (X * Y) 0.5 0.
Proof.
  intros Hx Hy HY. eapply ap_weak; [apply (ap_mul x y X Y 0 0 1 1 1 0 Hx Hy HY); [|lia]| |].
  - change (bpow radix2 0) with 1. lra.
  - change (bpow radix2 (0 - 54)) with (bpow radix2 (-53 + -1)). rewrite bpow_plus. fold uu. change (bpow radix2 (-1)) with (/ 2). change (bpow radix2 0) with 1. pose proof uu_pos. lra.
  - change (bpow radix2 0) with 1. lra.
Qed.
Lemma q_term k t v X c j : (-900 <= k <= 900)%Z -> ap t X (c * uu) (bpow radix2 j) -> fits k v -> (0 <= j <= 20)%Z -> aps k (b64_mult mode_NE t v) (X * V64 v) (c + bpow radix2 j / 2) j.
Proof.
  intros Hk Ht Hv Hj. eapply ap_weak; [apply (ap_mul t v _ _ _ _ _ _ (bpow radix2 k) (k + j) Ht (ap_exact k v Hv)); [| |lia]| |].
  - destruct Hv as [_ Hv]. exact Hv.
  - rewrite bpow_plus. right. ring.
  - rewrite bSe. right. ring.
  - rewrite bS. lra.
Qed.
Lemma two_f : ap (n2 : f64) 2 0 2.
Proof. destruct (ofZ_exact 2 ltac:(vm_compute; discriminate)) as [E F]. split; [exact F|]. change (V64 n2) with (V64 (f64_ofZ 2)). rewrite E. rewrite Rminus_diag_eq, Rabs_R0 by reflexivity. rewrite Rabs_pos_eq by lra. lra. Qed.
Lemma aps_dbl k r X c i : (-900 <= k <= 900)%Z -> aps k r X c i -> (0 <= i <= 19)%Z -> aps k (b64_mult mode_NE n2 r) (2 * X) (2 * c + bpow radix2 i) (i + 1).
Proof.
  intros Hk H Hi. eapply ap_weak; [apply (ap_mul _ r _ _ _ _ _ _ (Rabs X) (k + (i + 1)) two_f H); [lra| |lia]| |].
  - rewrite bS, bpow_plus. change (bpow radix2 1) with 2. right. ring.
  - rewrite bSe, bpow_plus. change (bpow radix2 1) with 2. right. field.
  - rewrite bS. lra.
Qed.
(** 2 ((s1 + s2) v1 + (s3 + s4) v2 + (s5 + s6) v3) + v *)
Lemma q_row k a b c v1 v2 v3 v A B C : (-900 <= k <= 900)%Z -> ap a A (2 * uu) 2 -> ap b B (2 * uu) 2 -> ap c C (2 * uu) 2 -> fits k v1 -> fits k v2 -> fits k v3 -> fits k v ->
  close_to (b64_plus mode_NE (b64_mult mode_NE n2 (b64_plus mode_NE (b64_plus mode_NE (b64_mult mode_NE a v1) (b64_mult mode_NE b v2)) (b64_mult mode_NE c v3))) v)
    (2 * (A * V64 v1 + B * V64 v2 + C * V64 v3) + V64 v) (54 * bpow radix2 (k - 53)).
Proof.
  intros Hk Ha Hb Hc H1 H2 H3 Hv. change 2 with (bpow radix2 1) in Ha at 2. change 2 with (bpow radix2 1) in Hb at 2. change 2 with (bpow radix2 1) in Hc at 2.
  pose proof (q_term k a v1 A 2 1 Hk Ha H1 ltac:(lia)) as t1. pose proof (q_term k b v2 B 2 1 Hk Hb H2 ltac:(lia)) as t2. pose proof (q_term k c v3 C 2 1 Hk Hc H3 ltac:(lia)) as t3.
  assert (bpow radix2 1 + bpow radix2 1 <= bpow radix2 2) as L1 by (pows; lra). pose proof (aps_add k Hk _ _ _ _ _ _ _ _ 2 t1 t2 L1 ltac:(lia)) as s1.
  assert (bpow radix2 2 + bpow radix2 1 <= bpow radix2 3) as L2 by (pows; lra). pose proof (aps_add k Hk _ _ _ _ _ _ _ _ 3 s1 t3 L2 ltac:(lia)) as s2.
  pose proof (aps_dbl k _ _ _ _ Hk s2 ltac:(lia)) as d. change (3 + 1)%Z with 4%Z in d.
  assert (bpow radix2 4 + bpow radix2 0 <= bpow radix2 5) as L3 by (pows; lra). pose proof (aps_add k Hk _ _ _ _ _ _ _ _ 5 d (aps_fits k v Hv) L3 ltac:(lia)) as f.
  eapply (aps_close k); [exact f|]. pows. lra.
Qed.
Lemma quat_err k (q : Quat f64) p : (-900 <= k <= 900)%Z -> fits 0 (qa q) -> fits 0 (qb q) -> fits 0 (qc q) -> fits 0 (qd q) -> fits_pt k p ->
  close_pt (quat_apply q p) (quat_apply (val_quat q) (val_pt p)) (54 * bpow radix2 (k - 53)).
Proof.
  intros Hk Ha Hb Hc Hd (P1 & P2 & P3). destruct q as [a b c d]. cbn [qa qb qc qd] in *.
  assert (forall x, fits 0 x -> ap x (V64 x) 0 1 /\ Rabs (V64 x) <= 1) as F. { intros x H. split; [exact (ap_exact 0 x H)|]. destruct H as [_ H]. exact H. }
  assert (forall x y, fits 0 x -> fits 0 y -> aps 0 (b64_mult mode_NE x y) (V64 x * V64 y) 0.5 0) as pr. { intros x y Hx Hy. apply ap_unit; apply F; assumption. }
  assert (forall x, fits 0 x -> aps 0 (b64_mult mode_NE (b64_opp x) x) (- V64 x * V64 x) 0.5 0) as sq. { intros x Hx. apply ap_unit; [apply opp_ap|..]; apply F; assumption. }
  assert (forall x y X Y, aps 0 x X 0.5 0 -> aps 0 y Y 0.5 0 -> ap (b64_plus mode_NE x y) (X + Y) (2 * uu) 2 /\ ap (b64_minus mode_NE x y) (X - Y) (2 * uu) 2) as su.
  { intros x y X Y Hx Hy. assert (bpow radix2 0 + bpow radix2 0 <= bpow radix2 1) as L by (pows; lra). pose proof uu_pos. split.
    - eapply ap_weak; [exact (aps_unit _ _ _ _ (aps_add 0 ltac:(lia) _ _ _ _ _ _ _ _ 1 Hx Hy L ltac:(lia)))| |]; pows; lra.
    - eapply ap_weak; [exact (aps_unit _ _ _ _ (aps_sub 0 ltac:(lia) _ _ _ _ _ _ _ _ 1 Hx Hy L ltac:(lia)))| |]; pows; lra. }
  split; [|split].
  - apply q_row; try assumption; first [refine (proj1 (su _ _ _ _ _ _)) | refine (proj2 (su _ _ _ _ _ _))]; first [refine (sq _ _) | refine (pr _ _ _ _)]; assumption.
  - apply q_row; try assumption; first [refine (proj1 (su _ _ _ _ _ _)) | refine (proj2 (su _ _ _ _ _ _))]; first [refine (sq _ _) | refine (pr _ _ _ _)]; assumption.
  - apply q_row; try assumption; first [refine (proj1 (su _ _ _ _ _ _)) | refine (proj2 (su _ _ _ _ _ _))]; first [refine (sq _ _) | refine (pr _ _ _ _)]; assumption.
Qed.

(** ** Cases *)
Lemma back_refuted : exists t t' p : Point3 f64, fits_pt 53 t /\ fits_pt 53 t' /\ fits_pt 53 p /\ opposite t t' /\
  val_pt p = mkP 1 1 1 /\ val_pt (translation t' (translation t p)) = O3.
Proof.
  exists (dp (2 ^ 53) (2 ^ 53) (2 ^ 53)), (dp (- 2 ^ 53) (- 2 ^ 53) (- 2 ^ 53)), (dp 1 1 1).
  destruct (dp_fits (2 ^ 53) (2 ^ 53) (2 ^ 53) 53) as [F1 E1]; [lia|vm_compute; discriminate|vm_compute; discriminate|vm_compute; discriminate|].
  destruct (dp_fits (- 2 ^ 53) (- 2 ^ 53) (- 2 ^ 53) 53) as [F2 E2]; [lia|vm_compute; discriminate|vm_compute; discriminate|vm_compute; discriminate|].
  destruct (dp_fits 1 1 1 53) as [F3 E3]; [lia|vm_compute; discriminate|vm_compute; discriminate|vm_compute; discriminate|].
  split; [exact F1|]. split; [exact F2|]. split; [exact F3|]. split.
  - unfold opposite. rewrite E1, E2. unfold sub3, O3. cbn [px py pz]. rewrite opp_IZR. f_equal; lra.
  - split; [exact E3|].
    assert (b64_plus mode_NE (b64_plus mode_NE (f64_ofZ 1) (f64_ofZ (2 ^ 53))) (f64_ofZ (- 2 ^ 53)) = Binary.B754_zero 53 1024 false) as Z by (vm_compute; reflexivity).
    unfold translation, padd, dp. cbn [px py pz nadd F64Num]. rewrite Z. reflexivity.
Qed.
Lemma euler_case : stored_euler (2 * bpow radix2 (-53)) (mkEuler (f64_ofZ 1) (f64_ofZ 0) (f64_ofZ 0) (f64_ofZ 1) (f64_ofZ 1) (f64_ofZ 0)) 0 (PI / 2) 0 /\ fits_pt 2 (dp 1 (-2) 3).
Proof.
  destruct (ofZ_exact 1 ltac:(vm_compute; discriminate)) as [E1 F1]. destruct (ofZ_exact 0 ltac:(vm_compute; discriminate)) as [E0 F0].
  assert (forall d, 0 <= d -> stored d (f64_ofZ 1) 1 /\ stored d (f64_ofZ 0) 0) as St.
  { intros d Hd. unfold stored, fits, fin, val. change (bpow radix2 0) with 1. fold (V64 (f64_ofZ 1)). fold (V64 (f64_ofZ 0)). rewrite E1, E0.
    rewrite (Rminus_diag_eq 1 1), (Rminus_diag_eq 0 0), !Rabs_R0, Rabs_R1 by reflexivity. repeat split; first [assumption | lra]. }
  pose proof (bpow_ge_0 radix2 (-53)). destruct (St (2 * bpow radix2 (-53)) ltac:(lra)) as [A B]. split.
  - unfold stored_euler. rewrite cos_0, sin_0, cos_PI2, sin_PI2. repeat split; first [apply A | apply B].
  - apply dp_fits; vm_compute; try split; discriminate.
Qed.
Lemma matrix_case : let u := mkP 0 (-1) 0 in let v := mkP 1 0 0 in let w := mkP 0 0 1 in
  isometry (rows u v w) /\ stored_matrix (0 * bpow radix2 (-53)) (mkMat (f64_ofZ 0) (f64_ofZ (-1)) (f64_ofZ 0) (f64_ofZ 1) (f64_ofZ 0) (f64_ofZ 0) (f64_ofZ 0) (f64_ofZ 0) (f64_ofZ 1)) u v w.
Proof.
  cbv zeta. split.
  - intros p q. unfold dist3, len3, rows, dot3, sub3. cbn [px py pz]. f_equal. ring.
  - rewrite Rmult_0_l. assert (forall z, (Z.abs z <= 1)%Z -> close_to (f64_ofZ z) (IZR z) 0) as St.
    { intros z Hz. destruct (ofZ_exact z) as [E F]; [transitivity 1%Z; [exact Hz|vm_compute; discriminate]|]. unfold close_to, fin, val. fold (V64 (f64_ofZ z)). rewrite E.
      rewrite Rminus_diag_eq, Rabs_R0 by reflexivity. split; [exact F|lra]. }
    repeat split; apply St; lia.
Qed.
