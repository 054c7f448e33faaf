(** Doubles: values of sums, differences and quotients. *)
From Coq Require Import ZArith Bool Reals Lra Lia.
From Flocq Require Import Core Plus_error IEEE754.Binary IEEE754.Bits IEEE754.BinarySingleNaN.
From Verif Require Import Base Num MStl MF64 LF64 LF64Ord.
Open Scope R_scope.

#[global] Instance prec53 : Prec_gt_0 53 := eq_refl.
Lemma round64_le x y : x <= y -> round64 x <= round64 y.
Proof. apply round_le; typeclasses eauto. Qed.
Lemma round64_id x : generic_format radix2 (FLT_exp (-1074) 53) x -> round64 x = x.
Proof. apply round_generic. typeclasses eauto. Qed.
Lemma fmt64 (x : f64) : generic_format radix2 (FLT_exp (-1074) 53) (V64 x).
Proof. apply (Binary.generic_format_B2R 53 1024 x). Qed.
Lemma round64_V x : round64 (V64 x) = V64 x.
Proof. apply round64_id, fmt64. Qed.
Lemma round64_0 : round64 0 = 0. Proof. apply round_0. typeclasses eauto. Qed.
Lemma fmt_bpow e : (-1074 <= e)%Z -> generic_format radix2 (FLT_exp (-1074) 53) (bpow radix2 e).
Proof. intros H. apply generic_format_bpow. unfold FLT_exp. lia. Qed.
Lemma round64_1 : round64 1 = 1.
Proof. apply round64_id. change 1 with (bpow radix2 0). apply fmt_bpow. lia. Qed.

Lemma sub64 x y : fin64 x = true -> fin64 y = true -> Rabs (round64 (V64 x - V64 y)) < bpow radix2 1024 ->
  V64 (b64_minus mode_NE x y) = round64 (V64 x - V64 y) /\ fin64 (b64_minus mode_NE x y) = true.
Proof.
  intros Fx Fy H. pose proof (Binary.Bminus_correct 53 1024 eq_refl eq_refl binop_nan_pl64 mode_NE x y Fx Fy) as C.
  change (SpecFloat.fexp 53 1024) with (FLT_exp (-1074) 53) in C. change (round_mode mode_NE) with ZnearestE in C.
  rewrite Rlt_bool_true in C by exact H. tauto.
Qed.
Lemma add64 x y : fin64 x = true -> fin64 y = true -> Rabs (round64 (V64 x + V64 y)) < bpow radix2 1024 ->
  V64 (b64_plus mode_NE x y) = round64 (V64 x + V64 y) /\ fin64 (b64_plus mode_NE x y) = true.
Proof.
  intros Fx Fy H. pose proof (Binary.Bplus_correct 53 1024 eq_refl eq_refl binop_nan_pl64 mode_NE x y Fx Fy) as C.
  change (SpecFloat.fexp 53 1024) with (FLT_exp (-1074) 53) in C. change (round_mode mode_NE) with ZnearestE in C.
  rewrite Rlt_bool_true in C by exact H. tauto.
Qed.
Lemma mul64 x y : fin64 x = true -> fin64 y = true -> Rabs (round64 (V64 x * V64 y)) < bpow radix2 1024 ->
  V64 (b64_mult mode_NE x y) = round64 (V64 x * V64 y) /\ fin64 (b64_mult mode_NE x y) = true.
Proof.
  intros Fx Fy H. pose proof (Binary.Bmult_correct 53 1024 eq_refl eq_refl binop_nan_pl64 mode_NE x y) as C.
  change (SpecFloat.fexp 53 1024) with (FLT_exp (-1074) 53) in C. change (round_mode mode_NE) with ZnearestE in C.
  rewrite Rlt_bool_true in C by exact H. rewrite Fx, Fy in C. tauto.
Qed.
Lemma div64 x y : fin64 x = true -> V64 y <> 0 -> Rabs (round64 (V64 x / V64 y)) < bpow radix2 1024 ->
  V64 (b64_div mode_NE x y) = round64 (V64 x / V64 y) /\ fin64 (b64_div mode_NE x y) = true.
Proof.
  intros Fx Hy H. pose proof (Binary.Bdiv_correct 53 1024 eq_refl eq_refl binop_nan_pl64 mode_NE x y Hy) as C.
  change (SpecFloat.fexp 53 1024) with (FLT_exp (-1074) 53) in C. change (round_mode mode_NE) with ZnearestE in C.
  rewrite Rlt_bool_true in C by exact H. rewrite Fx in C. tauto.
Qed.
(** Rounding is bounded by any double that bounds the number. *)
Lemma round64_bound x (b : R) : generic_format radix2 (FLT_exp (-1074) 53) b -> Rabs x <= b -> Rabs (round64 x) <= b.
Proof. intros Hb Hx. apply abs_round_le_generic; [typeclasses eauto|typeclasses eauto|exact Hb|exact Hx]. Qed.
Lemma round64_small x e : (-1074 <= e)%Z -> Rabs x <= bpow radix2 e -> (e < 1024)%Z -> Rabs (round64 x) < bpow radix2 1024.
Proof. intros H Hx He. eapply Rle_lt_trans; [apply (round64_bound x (bpow radix2 e)); [apply fmt_bpow; exact H|exact Hx]|]. apply bpow_lt. exact He. Qed.
(** A difference of two different doubles does not round to zero. *)
Lemma sub_pos (x y : f64) : V64 y < V64 x -> 0 < round64 (V64 x - V64 y).
Proof.
  intros H. assert (0 <= round64 (V64 x - V64 y)) as [P|E].
  - rewrite <- round64_0. apply round64_le. lra.
  - exact P.
  - exfalso. symmetry in E. apply (round_plus_neq_0 radix2 (FLT_exp (-1074) 53) ZnearestE (V64 x) (- V64 y)); [apply fmt64|apply generic_format_opp, fmt64| |]; unfold Rminus in *; [lra|exact E].
Qed.
(** Nearest rounding errs by at most half a unit in the last place. *)
Lemma round64_err x e : (-1021 <= e)%Z -> Rabs x <= bpow radix2 e -> Rabs (round64 x - x) <= bpow radix2 (e - 54).
Proof.
  intros He Hx. destruct (Req_dec (Rabs x) (bpow radix2 e)) as [Q|Q].
  - replace (round64 x) with x; [rewrite Rminus_diag_eq, Rabs_R0 by reflexivity; apply bpow_ge_0|]. symmetry. apply round64_id.
    apply generic_format_abs_inv. rewrite Q. apply fmt_bpow. lia.
  - destruct (Req_dec x 0) as [->|Z]; [rewrite round64_0, Rminus_0_r, Rabs_R0; apply bpow_ge_0|].
    eapply Rle_trans; [apply error_le_half_ulp; typeclasses eauto|]. rewrite ulp_neq_0 by exact Z. unfold cexp.
    assert (mag radix2 x <= e)%Z as M by (apply mag_le_bpow; [exact Z|lra]).
    replace (/ 2) with (bpow radix2 (-1)) by reflexivity. rewrite <- bpow_plus. apply bpow_le. unfold FLT_exp. lia.
Qed.
