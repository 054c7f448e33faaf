(** Decimal bounds for pi, from Machin's series in the standard library. *)
From Coq Require Import Reals ZArith QArith Qreals Lra Lia Machin Rtrigo_facts.
Open Scope R_scope.

(** Term number [n] of 2 atan(1/3) + atan(1/7), with the alternating sign, and the partial sums. *)
Definition qterm (n : nat) : Q :=
  let k := (2 * Z.of_nat n + 1)%Z in
  ((if Nat.even n then 1 else -1) * (2 * 7 ^ k + 3 ^ k) # Z.to_pos (21 ^ k * k))%Q.
Fixpoint qsum (n : nat) : Q := match n with O => qterm 0 | S m => Qred (qsum m + qterm n) end.

Lemma ratan_seq_pow x n : Ratan.Ratan_seq x n = x ^ (2 * n + 1) / INR (2 * n + 1).
Proof. reflexivity. Qed.
Lemma qterm_R n : Q2R (qterm n) = tg_alt PI_2_3_7_tg n.
Proof.
  unfold tg_alt, PI_2_3_7_tg. rewrite !ratan_seq_pow. unfold qterm. cbv zeta.
  assert ((2 * Z.of_nat n + 1)%Z = Z.of_nat (2 * n + 1)) as -> by lia. set (k := (2 * n + 1)%nat).
  assert (0 < k)%nat as K by lia. unfold Q2R. cbn [Qnum Qden].
  assert (0 < 21 ^ Z.of_nat k * Z.of_nat k)%Z by (apply Z.mul_pos_pos; [apply Z.pow_pos_nonneg; lia|lia]).
  rewrite Z2Pos.id by assumption. rewrite !mult_IZR, plus_IZR, mult_IZR. rewrite <- !pow_IZR. rewrite <- INR_IZR_INZ.
  rewrite !pow_inv. replace 21 with (3 * 7) by lra. rewrite Rpow_mult_distr.
  pose proof (pow_lt 3 k ltac:(lra)). pose proof (pow_lt 7 k ltac:(lra)). pose proof (lt_0_INR k K).
  assert (IZR (if Nat.even n then 1 else -1) = (-1) ^ n) as ->.
  { destruct (Nat.even n) eqn:E.
    - apply Nat.even_spec in E. destruct E as [m ->]. rewrite pow_1_even. reflexivity.
    - assert (Nat.odd n = true) as O by (unfold Nat.odd; rewrite E; reflexivity). apply Nat.odd_spec in O. destruct O as [m ->]. rewrite Nat.add_1_r, pow_1_odd. reflexivity. }
  field. lra.
Qed.
Lemma qsum_R n : Q2R (qsum n) = sum_f_R0 (tg_alt PI_2_3_7_tg) n.
Proof. induction n as [|n IH]; cbn [qsum sum_f_R0]; [apply qterm_R|]. rewrite (Qeq_eqR _ _ (Qred_correct _)), Q2R_plus, IH, qterm_R. reflexivity. Qed.

Lemma pi_bounds : 314159265358979323846264338 / 100000000000000000000000000 < PI < 314159265358979323846264339 / 100000000000000000000000000.
Proof.
  destruct (PI_2_3_7_ineq 30) as [L U]. rewrite <- qsum_R in L, U.
  assert (Q2R (314159265358979323846264338 # 400000000000000000000000000) < Q2R (qsum (S (2 * 30)))) as A by (apply Qlt_Rlt; vm_compute; reflexivity).
  assert (Q2R (qsum (2 * 30)) < Q2R (314159265358979323846264339 # 400000000000000000000000000)) as B by (apply Qlt_Rlt; vm_compute; reflexivity).
  unfold Q2R in A at 1. unfold Q2R in B at 2. cbn [Qnum Qden] in A, B. lra.
Qed.
