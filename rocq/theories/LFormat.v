(** Printing and reading doubles. *)
From Coq Require Import ZArith List Bool Reals Lra Lia.
From Flocq Require Import Core IEEE754.Binary IEEE754.Bits IEEE754.BinarySingleNaN.
From Verif Require Import Base Num MText MF64 MFormat SObj SFormat LBase LF64 LText.
Import ListNotations.
Open Scope Z_scope.

(** ** Integers *)
Lemma half_even_ok n d : 0 < d -> half_even n d = ZnearestE (IZR n / IZR d).
Proof.
  intros Hd. assert (0 < IZR d)%R as PD by (apply IZR_lt; exact Hd). unfold half_even, Znearest. rewrite Zfloor_div by lia.
  assert (IZR n / IZR d - IZR (n / d) = IZR (n mod d) / IZR d)%R as E.
  { rewrite (Z.div_mod n d) at 1 by lia. rewrite plus_IZR, mult_IZR. field. lra. }
  rewrite E. pose proof (Z.mod_pos_bound n d Hd) as B.
  assert (forall c, c <> Eq -> Rcompare (IZR (n mod d) / IZR d) (/ 2) = c -> n mod d <> 0 \/ c = Lt) as NZ.
  { intros c _ Hc. destruct (Z.eq_dec (n mod d) 0) as [Z0|]; [right|left; assumption]. rewrite Z0 in Hc. rewrite <- Hc. apply Rcompare_Lt. unfold Rdiv. rewrite Rmult_0_l. lra. }
  assert (n mod d <> 0 -> Zceil (IZR n / IZR d) = n / d + 1) as C.
  { intros NZ0. rewrite Zceil_floor_neq; [rewrite Zfloor_div by lia; reflexivity|]. rewrite Zfloor_div by lia. intros K.
    assert (IZR (n mod d) / IZR d = 0)%R as K0 by lra. apply NZ0. apply eq_IZR. apply (Rmult_eq_reg_r (/ IZR d)); [|apply Rinv_neq_0_compat; lra]. unfold Rdiv in K0. lra. }
  assert (forall x, (x / IZR d - / 2 = (2 * x - IZR d) * / (2 * IZR d))%R) as F by (intros x; field; lra).
  assert (0 < / (2 * IZR d))%R as PI by (apply Rinv_0_lt_compat; lra).
  destruct (Z.ltb_spec (2 * (n mod d)) d) as [L|L].
  - rewrite Rcompare_Lt; [reflexivity|]. apply IZR_lt in L. rewrite mult_IZR in L. pose proof (F (IZR (n mod d))). assert ((2 * IZR (n mod d) - IZR d) * / (2 * IZR d) < 0)%R by (apply Ropp_lt_cancel; rewrite Ropp_0, <- Ropp_mult_distr_l_reverse; apply Rmult_lt_0_compat; lra). lra.
  - destruct (Z.ltb_spec d (2 * (n mod d))) as [G|G].
    + rewrite Rcompare_Gt; [rewrite C by lia; reflexivity|]. apply IZR_lt in G. rewrite mult_IZR in G. pose proof (F (IZR (n mod d))). assert (0 < (2 * IZR (n mod d) - IZR d) * / (2 * IZR d))%R by (apply Rmult_lt_0_compat; lra). lra.
    + assert (2 * (n mod d) = d) as EQ by lia. assert (IZR d = 2 * IZR (n mod d))%R as EQR by (rewrite <- mult_IZR; f_equal; lia). rewrite Rcompare_Eq; [|apply (Rmult_eq_reg_r (IZR d)); [|lra]; unfold Rdiv; rewrite Rmult_assoc, Rinv_l by lra; lra].
      destruct (Z.even (n / d)) eqn:EV; cbn [negb]; [reflexivity|]. rewrite C by lia. reflexivity.
Qed.

Lemma up_pos b z : 0 < b -> 0 < up b z.
Proof. intros. unfold up. apply Z.pow_pos_nonneg; lia. Qed.
Lemma up_bpow (r : radix) z : IZR (up r z) = bpow r (Z.max 0 z).
Proof. unfold up. rewrite IZR_Zpower by lia. reflexivity. Qed.
Lemma up_ratio (r : radix) z : (IZR (up r z) = bpow r z * IZR (up r (- z)))%R.
Proof. rewrite !up_bpow, <- bpow_plus. f_equal. lia. Qed.

(** ** Six digits *)
Notation V m e := (F2R (Float radix2 m e)).
Lemma frac10 m e k : 0 < m -> (IZR (m * up 2 e * up 10 k) / IZR (up 2 (- e) * up 10 (- k)) = V m e * bpow radix10 k)%R.
Proof.
  intros Hm. rewrite !mult_IZR. rewrite (up_ratio radix2 e : IZR (up 2 e) = _). rewrite (up_ratio radix10 k : IZR (up 10 k) = _). unfold F2R. cbn [Fnum Fexp].
  assert (0 < IZR (up 2 (- e)))%R by (apply IZR_lt, up_pos; lia). assert (0 < IZR (up 10 (- k)))%R by (apply IZR_lt, up_pos; lia).
  change (up radix2 (- e)) with (up 2 (- e)). change (up radix10 (- k)) with (up 10 (- k)). field. lra.
Qed.
Lemma frac10_le m e X : 0 < m -> (up 10 X * up 2 (- e) <=? m * up 2 e * up 10 (- X)) = true <-> (bpow radix10 X <= V m e)%R.
Proof.
  intros Hm. rewrite Z.leb_le. pose proof (frac10 m e (- X) Hm) as F. rewrite Z.opp_involutive in F.
  assert (0 < IZR (up 2 (- e) * up 10 X))%R as P by (apply IZR_lt, Z.mul_pos_pos; apply up_pos; lia).
  assert (V m e * bpow radix10 (- X) * bpow radix10 X = V m e)%R as I by (rewrite Rmult_assoc, <- bpow_plus; replace (- X + X) with 0 by lia; cbn; ring).
  pose proof (bpow_gt_0 radix10 X) as PX. split; intros H.
  - apply IZR_le in H. rewrite (Z.mul_comm (up 10 X)) in H. assert (1 <= V m e * bpow radix10 (- X))%R by (rewrite <- F; apply (Rmult_le_reg_r (IZR (up 2 (- e) * up 10 X))); [exact P|]; unfold Rdiv; rewrite Rmult_assoc, Rinv_l by lra; lra). nra.
  - apply le_IZR. rewrite (Z.mul_comm (up 10 X)). assert (1 <= V m e * bpow radix10 (- X))%R as G. { apply (Rmult_le_reg_r (bpow radix10 X)); [exact PX|]. rewrite I. lra. }
    rewrite <- F in G. apply (Rmult_le_compat_r (IZR (up 2 (- e) * up 10 X))) in G; [|lra]. unfold Rdiv in G. rewrite Rmult_assoc, Rinv_l in G by lra. lra.
Qed.
Lemma dec_exp_ok m e : 0 < m -> forall fuel X, (bpow radix10 (X - Z.of_nat fuel) <= V m e < bpow radix10 (X + 1))%R ->
  let Y := dec_exp fuel m e X in (bpow radix10 Y <= V m e < bpow radix10 (Y + 1))%R /\ X - Z.of_nat fuel <= Y <= X.
Proof.
  intros Hm. induction fuel as [|f IH]; intros X H; cbn [dec_exp].
  - rewrite Z.sub_0_r in H. cbv zeta. split; [exact H|]. lia.
  - destruct (up 10 X * up 2 (- e) <=? m * up 2 e * up 10 (- X)) eqn:E.
    + apply frac10_le in E; [|exact Hm]. cbv zeta. split; [split; [exact E|apply H]|]. lia.
    + destruct (IH (X - 1)) as [A B].
      * replace (X - 1 - Z.of_nat f) with (X - Z.of_nat (S f)) by lia. split; [apply H|]. replace (X - 1 + 1) with X by lia. apply Rnot_le_lt. intros K. apply frac10_le in K; [|exact Hm]. congruence.
      * cbv zeta. split; [exact A|]. lia.
Qed.
Definition in64 (m e : Z) : Prop := (bpow radix10 (-324) <= V m e < bpow radix10 309)%R.
Lemma six_ok m e : 0 < m -> in64 m e -> let '(d, X) := six m e in (IZR d * bpow radix10 (X - 5) = six_digits (V m e))%R /\ 100000 <= d < 1000000 /\ -324 <= X <= 309.
Proof.
  intros Hm H. unfold six. destruct (dec_exp_ok m e Hm 632 308 H) as [B R]. set (Y := dec_exp 632 m e 308) in *. change (308 - Z.of_nat 632) with (-324) in R.
  set (v := V m e) in *. pose proof (bpow_gt_0 radix10 Y) as PY. assert (0 < v)%R as PV by lra.
  set (d := half_even _ _).
  assert (d = ZnearestE (v * bpow radix10 (5 - Y))) as ED.
  { unfold d. rewrite half_even_ok by (apply Z.mul_pos_pos; apply up_pos; lia). f_equal. unfold v. rewrite <- (frac10 m e (5 - Y) Hm). replace (- (5 - Y)) with (Y - 5) by lia. reflexivity. }
  assert (mag radix10 v = Y + 1 :> Z) as M. { apply mag_unique_pos. replace (Y + 1 - 1) with Y by lia. exact B. }
  assert (six_digits v = IZR d * bpow radix10 (Y - 5))%R as ER.
  { unfold six_digits, round, F2R, scaled_mantissa, cexp. cbn [Fnum Fexp]. rewrite M. unfold FLX_exp. rewrite ED. replace (- (Y + 1 - 6)) with (5 - Y) by lia. replace (Y + 1 - 6) with (Y - 5) by lia. reflexivity. }
  assert (forall k, bpow radix10 (k - (Y - 5)) = bpow radix10 k * bpow radix10 (5 - Y))%R as BP by (intros k; rewrite <- bpow_plus; f_equal; lia).
  assert (100000 <= d <= 1000000) as D6.
  { rewrite ED. pose proof (bpow_gt_0 radix10 (5 - Y)). split.
    - rewrite <- (Zrnd_IZR ZnearestE 100000). apply (Zrnd_le ZnearestE).
      change 100000%R with (bpow radix10 5). replace 5 with (Y - (Y - 5)) at 1 by lia. rewrite BP. apply Rmult_le_compat_r; lra.
    - rewrite <- (Zrnd_IZR ZnearestE 1000000). apply (Zrnd_le ZnearestE).
      change 1000000%R with (bpow radix10 6). replace 6 with (Y + 1 - (Y - 5)) by lia. rewrite BP. apply Rmult_le_compat_r; lra. }
  destruct (Z.eqb_spec d 1000000) as [E6|N6].
  - split; [|lia]. rewrite ER, E6. replace (Y + 1 - 5) with (1 + (Y - 5)) by lia. rewrite bpow_plus. change (bpow radix10 1) with 10%R. ring.
  - split; [symmetry; exact ER|lia].
Qed.
