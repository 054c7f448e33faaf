(** Rounding errors of QuadBezierTriangle::eval in doubles. *)
From Coq Require Import ZArith List Bool Reals Lra Lia Psatz.
From Flocq Require Import Core IEEE754.Binary IEEE754.Bits IEEE754.BinarySingleNaN.
From Verif Require Import Base Num MGeometry MMesh MBezier MStl MF64 SMesh SGeom SMeasure SBezier SErr SErrN SPatch LBase LGeom LF64 LF64Arith LBezier LErr1 LErr2 LErrR.
Import ListNotations.
Open Scope R_scope.

Lemma two_ap : ap (n2 : f64) 2 0 2.
Proof. destruct (ofZ_ok 2 ltac:(lia)) as [E F]. split; [exact F|]. change (V64 (n2 : f64)) with (V64 (f64_ofZ 2)). rewrite E. split; unfold Rabs; destruct Rcase_abs; lra. Qed.

Section Six.
Variable b : Z.
Hypothesis Hb : (-900 <= b <= 900)%Z.
Let M : R := bpow radix2 b.
Let M0 : 0 < M. Proof. apply bpow_gt_0. Qed.
Lemma pw (c : Z) : bpow radix2 (b + c) = bpow radix2 c * M. Proof. unfold M. rewrite bpow_plus. ring. Qed.
Lemma pe (c : Z) : bpow radix2 (b + c - 54) = bpow radix2 (c - 1) * (uu * M).
Proof. unfold M, uu. rewrite <- !bpow_plus. f_equal. lia. Qed.
Let uM : 0 < uu * M. Proof. apply Rmult_lt_0_compat; [apply uu_pos|exact M0]. Qed.
Definition coef (a : f64) (A : R) : Prop := ap a A (uu * M) M /\ Rabs A <= M.
Definition parm (x : f64) (X : R) : Prop := ap x X (2 * uu) 1 /\ Rabs X <= 1.

Lemma mul_l x y X Y ex ey by' B c : ap x X ex 1 -> ap y Y ey by' -> Rabs Y <= B -> by' = bpow radix2 (b + c) -> (0 <= c <= 1)%Z ->
  ap (b64_mult mode_NE x y) (X * Y) (1 * ey + B * ex + bpow radix2 (c - 1) * (uu * M)) by'.
Proof. intros H1 H2 H3 -> Hc. rewrite <- pe. apply (ap_mul x y X Y ex ey 1 (bpow radix2 (b + c)) B (b + c) H1 H2 H3); [lra|lia]. Qed.
Lemma mul_r x y X Y ex ey by' c : ap x X ex 1 -> Rabs X <= 1 -> ap y Y ey by' -> by' = bpow radix2 (b + c) -> (0 <= c <= 1)%Z ->
  ap (b64_mult mode_NE y x) (X * Y) (by' * ex + 1 * ey + bpow radix2 (c - 1) * (uu * M)) by'.
Proof. intros H1 H3 H2 -> Hc. rewrite <- pe, (Rmult_comm X). apply (ap_mul y x Y X ey ex (bpow radix2 (b + c)) 1 1 (b + c) H2 H1 H3); [lra|lia]. Qed.
Lemma c0 : M = bpow radix2 (b + 0). Proof. unfold M. f_equal. lia. Qed.
Lemma c1 : 2 * M = bpow radix2 (b + 1). Proof. rewrite pw. reflexivity. Qed.
Lemma abs1 X A B : Rabs X <= 1 -> Rabs A <= B -> Rabs (X * A) <= B.
Proof. intros H1 H2. pose proof (abs_prod _ _ _ _ H1 H2). lra. Qed.
Ltac num := change (bpow radix2 (0 - 1)) with (/ 2); change (bpow radix2 (1 - 1)) with 1; nra.

Lemma sq_l a A x X : coef a A -> parm x X -> ap (b64_mult mode_NE x (b64_mult mode_NE x a)) (X * (X * A)) (6 * (uu * M)) M.
Proof.
  intros [Ha Ba] [Hx Bx]. assert (ap (b64_mult mode_NE x a) (X * A) (7 / 2 * (uu * M)) M) as H1.
  { eapply ap_weak; [apply (mul_l x a X A _ _ _ M 0 Hx Ha Ba c0); lia| |lra]. num. }
  eapply ap_weak; [apply (mul_l x _ X _ _ _ _ M 0 Hx H1 (abs1 _ _ _ Bx Ba) c0); lia| |lra]. num.
Qed.
Lemma sq_r a A x X : coef a A -> parm x X -> ap (b64_mult mode_NE (b64_mult mode_NE a x) x) (X * (X * A)) (6 * (uu * M)) M.
Proof.
  intros [Ha Ba] [Hx Bx]. assert (ap (b64_mult mode_NE a x) (X * A) (7 / 2 * (uu * M)) M) as H1.
  { eapply ap_weak; [apply (mul_r x a X A _ _ _ 0 Hx Bx Ha c0); lia| |lra]. num. }
  eapply ap_weak; [apply (mul_r x _ X _ _ _ _ 0 Hx Bx H1 c0); lia| |lra]. num.
Qed.
Lemma dbl_bound A : Rabs A <= M -> Rabs (2 * A) <= 2 * M.
Proof. intros H. rewrite Rabs_mult, (Rabs_pos_eq 2) by lra. lra. Qed.
Lemma dbl_l a A : coef a A -> ap (b64_mult mode_NE n2 a) (2 * A) (3 * (uu * M)) (2 * M).
Proof.
  intros [Ha Ba]. rewrite c1. eapply ap_weak; [apply (ap_mul n2 a 2 A 0 _ 2 M M (b + 1) two_ap Ha Ba); [rewrite <- c1; lra|lia]| |lra]. rewrite pe. num.
Qed.
Lemma dbl_r a A : coef a A -> ap (b64_mult mode_NE a n2) (2 * A) (3 * (uu * M)) (2 * M).
Proof.
  intros [Ha Ba]. rewrite c1, (Rmult_comm 2 A). eapply ap_weak; [apply (ap_mul a n2 A 2 _ 0 M 2 2 (b + 1) Ha two_ap); [rewrite Rabs_pos_eq; lra|rewrite <- c1; lra|lia]| |lra]. rewrite pe. num.
Qed.
Lemma mx_l a A x X y Y : coef a A -> parm x X -> parm y Y ->
  ap (b64_mult mode_NE y (b64_mult mode_NE x (b64_mult mode_NE n2 a))) (Y * (X * (2 * A))) (13 * (uu * M)) (2 * M).
Proof.
  intros Ca [Hx Bx] [Hy By]. pose proof (dbl_l a A Ca) as H0. destruct Ca as [Ha Ba]. pose proof (dbl_bound A Ba) as B2.
  assert (ap (b64_mult mode_NE x (b64_mult mode_NE n2 a)) (X * (2 * A)) (8 * (uu * M)) (2 * M)) as H1.
  { eapply ap_weak; [apply (mul_l x _ X _ _ _ _ (2 * M) 1 Hx H0 B2 c1); lia| |lra]. num. }
  eapply ap_weak; [apply (mul_l y _ Y _ _ _ _ (2 * M) 1 Hy H1 (abs1 _ _ _ Bx B2) c1); lia| |lra]. num.
Qed.
Lemma mx_r a A x X y Y : coef a A -> parm x X -> parm y Y ->
  ap (b64_mult mode_NE (b64_mult mode_NE (b64_mult mode_NE a n2) x) y) (Y * (X * (2 * A))) (13 * (uu * M)) (2 * M).
Proof.
  intros Ca [Hx Bx] [Hy By]. pose proof (dbl_r a A Ca) as H0. destruct Ca as [Ha Ba]. pose proof (dbl_bound A Ba) as B2.
  assert (ap (b64_mult mode_NE (b64_mult mode_NE a n2) x) (X * (2 * A)) (8 * (uu * M)) (2 * M)) as H1.
  { eapply ap_weak; [apply (mul_r x _ X _ _ _ _ 1 Hx Bx H0 c1); lia| |lra]. num. }
  eapply ap_weak; [apply (mul_r y _ Y _ _ _ _ 1 Hy By H1 c1); lia| |lra]. num.
Qed.
Lemma plus_c x y X Y ex ey bx by' c : ap x X ex bx -> ap y Y ey by' -> bx + by' <= bpow radix2 c * M -> (1 <= c <= 5)%Z ->
  ap (b64_plus mode_NE x y) (X + Y) (ex + ey + bpow radix2 (c - 1) * (uu * M)) (bpow radix2 c * M).
Proof. intros H1 H2 H3 Hc. rewrite <- pe, <- pw. apply (ap_add x y X Y ex ey bx by' (b + c) H1 H2); [rewrite pw; exact H3|lia]. Qed.
Lemma six_sum t1 t2 t3 t4 t5 t6 T1 T2 T3 T4 T5 T6 : ap t1 T1 (6 * (uu * M)) M -> ap t2 T2 (6 * (uu * M)) M -> ap t3 T3 (6 * (uu * M)) M ->
  ap t4 T4 (13 * (uu * M)) (2 * M) -> ap t5 T5 (13 * (uu * M)) (2 * M) -> ap t6 T6 (13 * (uu * M)) (2 * M) ->
  ap (b64_plus mode_NE (b64_plus mode_NE (b64_plus mode_NE (b64_plus mode_NE (b64_plus mode_NE t1 t2) t3) t4) t5) t6) (T1 + T2 + T3 + T4 + T5 + T6) (88 * (uu * M)) (32 * M).
Proof.
  intros H1 H2 H3 H4 H5 H6.
  pose proof (plus_c _ _ _ _ _ _ _ _ 1 H1 H2 ltac:(change (bpow radix2 1) with 2; lra) ltac:(lia)) as S2. change (bpow radix2 1) with 2 in S2. change (bpow radix2 (1 - 1)) with 1 in S2.
  pose proof (plus_c _ _ _ _ _ _ _ _ 2 S2 H3 ltac:(change (bpow radix2 2) with 4; lra) ltac:(lia)) as S3. change (bpow radix2 2) with 4 in S3. change (bpow radix2 (2 - 1)) with 2 in S3.
  pose proof (plus_c _ _ _ _ _ _ _ _ 3 S3 H4 ltac:(change (bpow radix2 3) with 8; lra) ltac:(lia)) as S4. change (bpow radix2 3) with 8 in S4. change (bpow radix2 (3 - 1)) with 4 in S4.
  pose proof (plus_c _ _ _ _ _ _ _ _ 4 S4 H5 ltac:(change (bpow radix2 4) with 16; lra) ltac:(lia)) as S5. change (bpow radix2 4) with 16 in S5. change (bpow radix2 (4 - 1)) with 8 in S5.
  pose proof (plus_c _ _ _ _ _ _ _ _ 5 S5 H6 ltac:(change (bpow radix2 5) with 32; lra) ltac:(lia)) as S6. change (bpow radix2 5) with 32 in S6. change (bpow radix2 (5 - 1)) with 16 in S6.
  eapply ap_weak; [exact S6| |lra]. lra.
Qed.
End Six.

(** The quotient of two values with errors. *)
Lemma quot_ap (p w : f64) P D ep ew K w0 (k : Z) : ap p P ep (Rabs (V64 p)) -> ap w D ew (Rabs (V64 w)) -> 0 < w0 <= D -> ew <= w0 / 2 -> Rabs (P / D) <= K -> K = bpow radix2 k -> (-1000 <= k <= 900)%Z ->
  (ep + K * ew) * 2 <= K * w0 -> V64 w <> 0 /\ close_to (b64_div mode_NE p w) (P / D) ((ep + K * ew) * 2 / w0 + uu * K).
Proof.
  intros (Fp & Ep & _) (Fw & Ew & _) Hw He HK EK Hk Hs. assert (w0 / 2 <= V64 w) as Lw by (revert Ew; unfold Rabs; destruct Rcase_abs; lra). assert (V64 w <> 0) as Nw by lra. split; [exact Nw|].
  assert (0 <= ew) as W0 by (pose proof (Rabs_pos (V64 w - D)); lra). assert (0 <= ep) as P0 by (pose proof (Rabs_pos (V64 p - P)); lra). assert (0 <= K) as K0 by (pose proof (Rabs_pos (P / D)); lra).
  assert (Rabs (V64 p / V64 w - P / D) <= (ep + K * ew) * 2 / w0) as Q.
  { replace (V64 p / V64 w - P / D) with (((V64 p - P) - P / D * (V64 w - D)) / V64 w) by (field; split; lra).
    unfold Rdiv at 1. rewrite Rabs_mult, (Rabs_pos_eq (/ V64 w)) by (apply Rlt_le, Rinv_0_lt_compat; lra).
    assert (Rabs (V64 p - P - P / D * (V64 w - D)) <= ep + K * ew) as N1.
    { pose proof (abs_prod _ _ _ _ HK Ew) as Q1. revert Ep Q1. clear. unfold Rabs. repeat destruct Rcase_abs; lra. }
    replace ((ep + K * ew) * 2 / w0) with ((ep + K * ew) * / (w0 / 2)) by (field; lra).
    apply Rmult_le_compat; [apply Rabs_pos|apply Rlt_le, Rinv_0_lt_compat; lra|exact N1|apply Rinv_le_contravar; lra]. }
  assert ((ep + K * ew) * 2 / w0 <= K) as Q2 by (apply (Rmult_le_reg_r w0); [lra|]; unfold Rdiv; rewrite Rmult_assoc, Rinv_l by lra; lra).
  assert (Rabs (V64 p / V64 w) <= bpow radix2 (k + 1)) as B. { rewrite bpow_plus, <- EK. change (bpow radix2 1) with 2. revert Q HK. generalize (V64 p / V64 w) (P / D). intros x y. unfold Rabs. repeat destruct Rcase_abs; lra. }
  destruct (div_e p w _ Fp Nw B (le1000 (k + 1) ltac:(lia))) as [E F]. destruct (rounded_pow _ _ (k + 1) E ltac:(lia) B) as [_ R2].
  assert (bpow radix2 (k + 1 - 54) = uu * K) as U by (rewrite EK; unfold uu; rewrite <- bpow_plus; f_equal; lia). rewrite U in R2.
  split; [exact F|]. change (val (b64_div mode_NE p w)) with (V64 (b64_div mode_NE p w)). revert R2 Q. generalize (V64 (b64_div mode_NE p w)) (V64 p / V64 w) (P / D). intros x y z. unfold Rabs. repeat destruct Rcase_abs; lra.
Qed.
