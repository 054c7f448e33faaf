(** New rotations in double arithmetic. *)
From Coq Require Import Reals ZArith List Bool Lra Lia.
From Flocq Require Import Core IEEE754.Binary IEEE754.Bits IEEE754.BinarySingleNaN.
From Verif Require Import Base Num MGeometry MTransform MStl MF64 SGeom SF64 LF64 LF64Ord LF64Arith.
Open Scope R_scope.

Lemma bound64 (x : f64) : fin64 x = true -> Rabs (V64 x) < bpow radix2 1024.
Proof. intros _. apply Binary.abs_B2R_lt_emax. Qed.
Definition zero64 (x : f64) : Prop := fin64 x = true /\ V64 x = 0.
Lemma add_zero (x z : f64) : fin64 x = true -> zero64 z -> V64 (b64_plus mode_NE x z) = V64 x /\ fin64 (b64_plus mode_NE x z) = true.
Proof. intros F [Fz Z]. destruct (add64 x z F Fz) as [A B]; rewrite Z, Rplus_0_r, round64_V in *; [apply bound64; exact F|]. auto. Qed.
Lemma zero_add (x z : f64) : fin64 x = true -> zero64 z -> V64 (b64_plus mode_NE z x) = V64 x /\ fin64 (b64_plus mode_NE z x) = true.
Proof. intros F [Fz Z]. destruct (add64 z x Fz F) as [A B]; rewrite Z, Rplus_0_l, round64_V in *; [apply bound64; exact F|]. auto. Qed.
Lemma pow_pos1024 : 0 < bpow radix2 1024. Proof. apply bpow_gt_0. Qed.
Lemma mul_zero (x z : f64) : fin64 x = true -> zero64 z -> zero64 (b64_mult mode_NE x z).
Proof. intros F [Fz Z]. destruct (mul64 x z F Fz) as [A B]; rewrite Z, Rmult_0_r, round64_0 in *; [rewrite Rabs_R0; apply pow_pos1024|]. split; auto. Qed.
Lemma zero_mul (x z : f64) : fin64 x = true -> zero64 z -> zero64 (b64_mult mode_NE z x).
Proof. intros F [Fz Z]. destruct (mul64 z x Fz F) as [A B]; rewrite Z, Rmult_0_l, round64_0 in *; [rewrite Rabs_R0; apply pow_pos1024|]. split; auto. Qed.
Lemma mul_one (x o : f64) : fin64 x = true -> fin64 o = true -> V64 o = 1 -> V64 (b64_mult mode_NE x o) = V64 x /\ fin64 (b64_mult mode_NE x o) = true.
Proof. intros F Fo O. destruct (mul64 x o F Fo) as [A B]; rewrite O, Rmult_1_r, round64_V in *; [apply bound64; exact F|]. auto. Qed.
Lemma zeros_add (x z : f64) : zero64 x -> zero64 z -> zero64 (b64_plus mode_NE x z).
Proof. intros [F X] Z. destruct (add_zero x z F Z) as [A B]. split; [exact B|]. rewrite A. exact X. Qed.
Lemma is0 : zero64 (f64_ofZ 0). Proof. destruct (ofZ_ok 0 ltac:(lia)). split; assumption. Qed.
Lemma is1 : fin64 (f64_ofZ 1) = true /\ V64 (f64_ofZ 1) = 1. Proof. destruct (ofZ_ok 1 ltac:(lia)). split; assumption. Qed.
Lemma is2 : fin64 (f64_ofZ 2) = true. Proof. destruct (ofZ_ok 2 ltac:(lia)). assumption. Qed.
Lemma opp_zero (z : f64) : zero64 z -> zero64 (b64_opp z).
Proof. intros [F Z]. split; [unfold b64_opp; rewrite Binary.is_finite_Bopp; exact F|]. unfold b64_opp. rewrite Binary.B2R_Bopp, Z. lra. Qed.
Lemma minus_zero (x z : f64) : zero64 x -> zero64 z -> zero64 (b64_minus mode_NE x z).
Proof. intros [F X] [Fz Z]. destruct (sub64 x z F Fz) as [A B]; rewrite X, Z, Rminus_0_r, round64_0 in *; [rewrite Rabs_R0; apply pow_pos1024|]. split; auto. Qed.
Lemma deq_val (x y : f64) : fin64 y = true -> V64 x = V64 y /\ fin64 x = true -> deq x y.
Proof.
  intros F [E G]. apply eqb64. rewrite !ext_fin by assumption. split; [|split]; [| |exact E].
  - destruct x; try discriminate; reflexivity.
  - destruct y; try discriminate; reflexivity.
Qed.
Lemma new_rotations_double (p : Point3 f64) : fin64 (px p) = true -> fin64 (py p) = true -> fin64 (pz p) = true ->
  deq_pt (mat_apply mat_id p) p /\ deq_pt (quat_apply quat_id p) p.
Proof.
  intros X Y Z. destruct p as [x y z]. cbn [px py pz] in *. pose proof is0 as I0. destruct is1 as [I1 I1']. pose proof is2 as I2.
  unfold mat_apply, quat_apply, mat_id, quat_id, deq_pt, n0, n1, n2. cbn [px py pz m0 m1 m2 m3 m4 m5 m6 m7 m8 qa qb qc qd nadd nmul nsub nneg nofZ F64Num].
  pose proof (mul_zero x _ X I0) as X0. pose proof (mul_zero y _ Y I0) as Y0. pose proof (mul_zero z _ Z I0) as Z0.
  destruct (mul_one x _ X I1 I1') as [X1 FX]. destruct (mul_one y _ Y I1 I1') as [Y1 FY]. destruct (mul_one z _ Z I1 I1') as [Z1 FZ].
  pose proof (mul_zero _ _ I1 I0) as A. pose proof (mul_zero _ _ (proj1 I0) I0) as B. pose proof (zero_mul _ _ (proj1 I0) (opp_zero _ I0)) as C.
  set (o := f64_ofZ 0) in *. set (i := f64_ofZ 1) in *. set (two := f64_ofZ 2) in *.
  assert (forall a b c v : f64, zero64 a -> zero64 b -> zero64 c -> fin64 v = true -> 
    deq (b64_plus mode_NE (b64_mult mode_NE two (b64_plus mode_NE (b64_plus mode_NE (b64_mult mode_NE a x) (b64_mult mode_NE b y)) (b64_mult mode_NE c z))) v) v) as QR.
  { intros a b c v Ha Hb Hc Fv. apply deq_val; [exact Fv|]. apply zero_add; [exact Fv|]. apply mul_zero; [exact I2|]. repeat apply zeros_add; apply zero_mul; assumption. }
  split.
  - split; [|split]; (apply deq_val; [assumption|]).
    + destruct (add_zero (b64_mult mode_NE x i) (b64_mult mode_NE y o) FX Y0) as [V1 F1]. destruct (add_zero _ (b64_mult mode_NE z o) F1 Z0) as [V2 F2]. split; [congruence|exact F2].
    + destruct (zero_add (b64_mult mode_NE y i) (b64_mult mode_NE x o) FY X0) as [V1 F1]. destruct (add_zero _ (b64_mult mode_NE z o) F1 Z0) as [V2 F2]. split; [congruence|exact F2].
    + destruct (zero_add (b64_mult mode_NE z i) _ FZ (zeros_add _ _ X0 Y0)) as [V1 F1]. split; [congruence|exact F1].
  - split; [|split]; apply QR; try assumption; repeat (apply zeros_add || apply minus_zero); assumption.
Qed.
