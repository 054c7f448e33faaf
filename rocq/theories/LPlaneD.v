(** Planes in doubles: distances, cuts, projections and segments. *)
From Coq Require Import ZArith List Bool Reals Lra Lia Psatz.
From Flocq Require Import Core IEEE754.Binary IEEE754.Bits IEEE754.BinarySingleNaN.
From Verif Require Import Base Num MGeometry MStl MF64 SGeom SErr SErrN SPlaneD LBase LGeom LF64 LF64Arith LF64Ord LErr1 LErr2 LErr3 LErr10.
Import ListNotations.
Open Scope R_scope.

Lemma sgn_pos m e H : 0 < V64 (Binary.B754_finite 53 1024 false m e H). Proof. apply F2R_gt_0. reflexivity. Qed.
Lemma sgn_neg m e H : V64 (Binary.B754_finite 53 1024 true m e H) < 0. Proof. apply F2R_lt_0. reflexivity. Qed.
Lemma val_sign (x : f64) : fin64 x = true -> V64 x <> 0 -> Binary.Bsign 53 1024 x = Rlt_bool (V64 x) 0.
Proof.
  destruct x as [s|s|s p H|s m e H]; intros F N; try discriminate; [exfalso; apply N; reflexivity|]. destruct s.
  - rewrite Rlt_bool_true by apply sgn_neg. reflexivity.
  - pose proof (sgn_pos m e H). rewrite Rlt_bool_false by lra. reflexivity.
Qed.
(** A quotient is finite and rounded, or an infinity of the right sign. *)
Lemma div_any (x y : f64) : fin64 x = true -> fin64 y = true -> V64 y <> 0 ->
  (fin64 (b64_div mode_NE x y) = true /\ V64 (b64_div mode_NE x y) = round64 (V64 x / V64 y)) \/
  (V64 x <> 0 /\ b64_div mode_NE x y = Binary.B754_infinity 53 1024 (xorb (Rlt_bool (V64 x) 0) (Rlt_bool (V64 y) 0))).
Proof.
  intros Fx Fy Hy. pose proof (Binary.Bdiv_correct 53 1024 eq_refl eq_refl binop_nan_pl64 mode_NE x y Hy) as C.
  change (SpecFloat.fexp 53 1024) with (FLT_exp (-1074) 53) in C. change (round_mode mode_NE) with ZnearestE in C. cbv zeta in C.
  destruct (Rlt_dec (Rabs (round64 (V64 x / V64 y))) (bpow radix2 1024)) as [B|B].
  - left. rewrite Rlt_bool_true in C by exact B. rewrite Fx in C. tauto.
  - right. rewrite Rlt_bool_false in C by (apply Rnot_lt_le; exact B). assert (V64 x <> 0) as N.
    { intros Z. apply B. rewrite Z. unfold Rdiv. rewrite Rmult_0_l, round64_0, Rabs_R0. apply bpow_gt_0. }
    split; [exact N|]. rewrite <- !val_sign by assumption. change (Binary.Bdiv 53 1024 eq_refl eq_refl binop_nan_pl64 mode_NE x y) with (b64_div mode_NE x y) in C.
    destruct (b64_div mode_NE x y); cbn in C; try discriminate. injection C as ->. reflexivity.
Qed.
Lemma n0_val : V64 (n0 : f64) = 0. Proof. reflexivity. Qed.
Lemma n1_val : V64 (n1 : f64) = 1. Proof. apply (ofZ_ok 1). vm_compute. discriminate. Qed.
Lemma leb_fin (x y : f64) : fin64 x = true -> fin64 y = true -> f64_leb x y = true <-> V64 x <= V64 y.
Proof. intros Fx Fy. rewrite leb64, !ext_fin by assumption. destruct x; destruct y; try discriminate; cbn [Binary.is_nan]; tauto. Qed.
Lemma ltb_fin (x y : f64) : fin64 x = true -> fin64 y = true -> f64_ltb x y = true <-> V64 x < V64 y.
Proof. intros Fx Fy. rewrite ltb64, !ext_fin by assumption. destruct x; destruct y; try discriminate; cbn [Binary.is_nan]; tauto. Qed.
Lemma eqb_fin (x y : f64) : fin64 x = true -> fin64 y = true -> f64_eqb x y = true <-> V64 x = V64 y.
Proof. intros Fx Fy. rewrite eqb64, !ext_fin by assumption. destruct x; destruct y; try discriminate; cbn [Binary.is_nan]; tauto. Qed.
Lemma round64_1 : round64 1 = 1. Proof. apply round_generic; [typeclasses eauto|]. apply (fmt_bpow 0). lia. Qed.
Lemma F0 : fin64 (n0 : f64) = true. Proof. reflexivity. Qed.
Lemma F1 : fin64 (n1 : f64) = true. Proof. reflexivity. Qed.
(** The parameter of the crossing. *)
Lemma quo_test (a u : f64) : fin64 a = true -> fin64 u = true -> V64 u <> 0 -> let x := - V64 a / V64 u in let t := b64_div mode_NE (b64_opp a) u in
  (x <= 0 -> f64_leb t n0 = true) /\ (1 <= x -> f64_leb n1 t = true) /\ (0 < x < 1 -> fin64 t = true /\ V64 t = round64 x).
Proof.
  intros Fa Fu Nu x t. assert (fin64 (b64_opp a) = true) as Fo by (rewrite <- Fa; apply Binary.is_finite_Bopp). assert (V64 (b64_opp a) = - V64 a) as Vo by apply Binary.B2R_Bopp.
  assert (x = - V64 a * / V64 u) as Ex by reflexivity.
  destruct (div_any (b64_opp a) u Fo Fu Nu) as [[Ft Vt]|[Na Et]]; fold t in Ft, Vt || fold t in Et.
  - rewrite Vo in Vt. fold x in Vt. split; [|split].
    + intros H. apply leb_fin; [exact Ft|exact F0|]. rewrite n0_val, Vt, <- round64_0. apply round64_le, H.
    + intros H. apply leb_fin; [exact F1|exact Ft|]. rewrite n1_val, Vt, <- round64_1. apply round64_le, H.
    + intros _. split; assumption.
  - rewrite Vo in *. assert (0 < V64 u -> 0 < / V64 u) as I1 by apply Rinv_0_lt_compat. assert (V64 u < 0 -> / V64 u < 0) as I2 by apply Rinv_lt_0_compat.
    assert (x <= 0 -> t = Binary.B754_infinity 53 1024 true) as T1.
    { intros H. rewrite Et. f_equal. destruct (Rlt_bool_spec (- V64 a) 0); destruct (Rlt_bool_spec (V64 u) 0); try reflexivity; exfalso; [pose proof (I2 ltac:(lra))|pose proof (I1 ltac:(lra))]; nra. }
    assert (0 <= x -> t = Binary.B754_infinity 53 1024 false) as T2.
    { intros H. rewrite Et. f_equal. destruct (Rlt_bool_spec (- V64 a) 0); destruct (Rlt_bool_spec (V64 u) 0); try reflexivity; exfalso; [pose proof (I1 ltac:(lra))|pose proof (I2 ltac:(lra))]; nra. }
    split; [|split].
    + intros H. rewrite (T1 H). reflexivity.
    + intros H. rewrite (T2 ltac:(lra)). reflexivity.
    + intros H. exfalso. assert (Rabs (V64 (b64_opp a) / V64 u) <= 1) as B by (rewrite Vo; fold x; rewrite Rabs_pos_eq by lra; lra).
      destruct (div_e (b64_opp a) u 1 Fo Nu B) as [_ F]; [change 1 with (bpow radix2 0); apply bpow_le; lia|]. fold t in F. rewrite (T2 ltac:(lra)) in F. discriminate.
Qed.
