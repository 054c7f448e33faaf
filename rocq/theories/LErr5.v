(** Rounding errors of vector algebra: products, lengths and unit vectors of doubles. *)
From Coq Require Import ZArith List Bool Reals Lra Lia Psatz.
From Flocq Require Import Core Relative IEEE754.Binary IEEE754.Bits IEEE754.BinarySingleNaN.
From Verif Require Import Base Num MGeometry MStl MF64 SMesh SGeom SMeasure SErr LBase LGeom LF64 LF64Arith LErr1 LErr2 LErr3 LErr4.
Import ListNotations.
Open Scope R_scope.

Section Prod.
Variable k : Z.
Hypothesis Hk : (-480 <= k <= 480)%Z.
Let S : R := bpow radix2 k.
Let S_pos : 0 < S. Proof. apply bpow_gt_0. Qed.

Lemma mul_ap (x y : f64) : fits k x -> fits k y -> ap (b64_mult mode_NE x y) (V64 x * V64 y) (/ 2 * (uu * (S * S))) (1 * (S * S)).
Proof.
  intros Hx Hy. eapply ap_weak; [apply (ap_mul _ _ _ _ _ _ _ _ S (2 * k + 0) (ap_exact k x Hx) (ap_exact k y Hy)); [|fold S|lia]| |].
  - destruct Hy as [_ Hy]. exact Hy.
  - rewrite (sc (2 * k) 0 (S * S) 1 (S2 k) eq_refl). lra.
  - fold S. rewrite (sce (2 * k) 0 (-1) (S * S) (/ 2) ltac:(lia) (S2 k) eq_refl). lra.
  - rewrite (sc (2 * k) 0 (S * S) 1 (S2 k) eq_refl). lra.
Qed.
Lemma bp : bpow radix2 (2 * k - 53) = uu * (S * S).
Proof. unfold S. rewrite <- (S2 k). unfold uu. rewrite <- bpow_plus. f_equal. lia. Qed.
Lemma SS_pos : 0 < S * S. Proof. apply Rmult_lt_0_compat; exact S_pos. Qed.

Lemma dot_err (p q : Point3 f64) : fits_pt k p -> fits_pt k q -> close_to (dot p q) (dot3 (val_pt p) (val_pt q)) (5 * bpow radix2 (2 * k - 53)).
Proof.
  intros (P1 & P2 & P3) (Q1 & Q2 & Q3). rewrite bp. pose proof SS_pos as SP. pose proof uu_pos as UP.
  assert (0 < uu * (S * S)) by (apply Rmult_lt_0_compat; lra).
  pose proof (mul_ap _ _ P1 Q1) as M1. pose proof (mul_ap _ _ P2 Q2) as M2. pose proof (mul_ap _ _ P3 Q3) as M3.
  pose proof (ap_add _ _ _ _ _ _ _ _ (2 * k + 1) M1 M2) as A. rewrite (sc (2 * k) 1 (S * S) 2 (S2 k) eq_refl), (sce (2 * k) 1 0 (S * S) 1 ltac:(lia) (S2 k) eq_refl) in A.
  specialize (A ltac:(lra) ltac:(lia)).
  pose proof (ap_add _ _ _ _ _ _ _ _ (2 * k + 2) A M3) as B. rewrite (sc (2 * k) 2 (S * S) 4 (S2 k) eq_refl), (sce (2 * k) 2 1 (S * S) 2 ltac:(lia) (S2 k) eq_refl) in B.
  specialize (B ltac:(lra) ltac:(lia)). destruct B as (F & E & _). split; [exact F|]. eapply Rle_trans; [exact E|]. lra.
Qed.
Lemma minor_err (a b c d : f64) : fits k a -> fits k b -> fits k c -> fits k d ->
  close_to (b64_minus mode_NE (b64_mult mode_NE a b) (b64_mult mode_NE c d)) (V64 a * V64 b - V64 c * V64 d) (2 * bpow radix2 (2 * k - 53)).
Proof.
  intros Ha Hb Hc Hd. rewrite bp. pose proof SS_pos as SP.
  pose proof (ap_sub _ _ _ _ _ _ _ _ (2 * k + 1) (mul_ap _ _ Ha Hb) (mul_ap _ _ Hc Hd)) as A.
  rewrite (sc (2 * k) 1 (S * S) 2 (S2 k) eq_refl), (sce (2 * k) 1 0 (S * S) 1 ltac:(lia) (S2 k) eq_refl) in A.
  specialize (A ltac:(lra) ltac:(lia)). destruct A as (F & E & _). split; [exact F|]. eapply Rle_trans; [exact E|]. lra.
Qed.
Lemma cross_err (p q : Point3 f64) : fits_pt k p -> fits_pt k q ->
  let e := 2 * bpow radix2 (2 * k - 53) in let c := cross3 (val_pt p) (val_pt q) in
  close_to (px (cross p q)) (px c) e /\ close_to (py (cross p q)) (py c) e /\ close_to (pz (cross p q)) (pz c) e.
Proof.
  intros (P1 & P2 & P3) (Q1 & Q2 & Q3). cbn zeta. split; [|split]; apply minor_err; assumption.
Qed.
End Prod.

(** Lengths: relative error 6 u, plus 2^-535. *)
Lemma norm_err k (p : Point3 f64) : (k <= 450)%Z -> fits_pt k p ->
  exists n, norm p = Ok n /\ 0 <= val n /\ close_to n (len3 (val_pt p)) (6 * bpow radix2 (-53) * len3 (val_pt p) + bpow radix2 (-535)).
Proof.
  intros Hk ((F1 & B1) & (F2 & B2) & (F3 & B3)). destruct p as [x y z]. cbn [px py pz] in *.
  destruct (norm_e x y z k F1 F2 F3 Hk B1 B2 B3) as (n & E & F & P & D). exists n. split; [exact E|]. split; [exact P|]. split; [exact F|exact D].
Qed.

(** Components of a vector do not exceed its length. *)
Lemma comp_le (p : pt3) : Rabs (px p) <= len3 p /\ Rabs (py p) <= len3 p /\ Rabs (pz p) <= len3 p.
Proof.
  assert (forall x q, 0 <= q -> x * x <= q -> Rabs x <= sqrt q) as A.
  { intros x q Hq H. rewrite <- sqrt_Rsqr_abs. apply sqrt_le_1_alt. exact H. }
  destruct p as [x y z]. unfold len3, dot3. cbn [px py pz]. repeat split; apply A; nra.
Qed.

Lemma scale_e (x d : f64) L D : fin64 x = true -> fin64 d = true -> 0 < L -> Rabs (V64 x) <= L -> D = / L -> Rabs (V64 d - D) <= 9 * uu * D ->
  close_to (b64_mult mode_NE x d) (V64 x / L) (11 * uu) /\ close_to (b64_mult mode_NE d x) (V64 x / L) (11 * uu).
Proof.
  intros Fx Fd PL Bx -> Ed. assert (0 < / L) as PD by (apply Rinv_0_lt_compat; exact PL). pose proof uu_val as UV. pose proof uu_pos as UP.
  assert (Rabs (V64 x * / L) <= 1) as B0.
  { rewrite Rabs_mult, (Rabs_pos_eq (/ L)) by lra. apply Rmult_le_reg_r with L; [exact PL|]. rewrite Rmult_assoc, Rinv_l by lra. lra. }
  assert (Rabs (V64 x * V64 d - V64 x * / L) <= 9 * uu) as E1.
  { replace (V64 x * V64 d - V64 x * / L) with (V64 x * (V64 d - / L)) by ring. rewrite Rabs_mult.
    apply Rle_trans with (L * (9 * uu * / L)); [apply Rmult_le_compat; auto using Rabs_pos|]. right. field. lra. }
  assert (Rabs (V64 x * V64 d) <= 1 + 9 * uu) as B1.
  { replace (V64 x * V64 d) with ((V64 x * V64 d - V64 x * / L) + V64 x * / L) by ring. eapply Rle_trans; [apply Rabs_triang|]. lra. }
  assert (1 + 9 * uu <= bpow radix2 1000) as B2 by (apply Rle_trans with (bpow radix2 1); [cbn; lra|apply bpow_le; lia]).
  assert (forall w : f64, V64 w = round64 (V64 x * V64 d) -> fin64 w = true -> close_to w (V64 x / L) (11 * uu)) as W.
  2:{ destruct (mul_e x d _ Fx Fd B1 B2) as [E F]. split; [apply W; assumption|].
      rewrite Rmult_comm in B1. destruct (mul_e d x _ Fd Fx B1 B2) as [E' F']. apply W; [rewrite E'; f_equal; ring|exact F']. }
  intros w E F. split; [exact F|]. unfold val.
  pose proof (rounded_rel _ _ _ E B1) as R. pose proof eta_small as [_ ES].
  assert (eta <= / 4 * uu) as ET by (unfold eta, uu; change (/ 4) with (bpow radix2 (-2)); rewrite <- bpow_plus; apply bpow_le; lia).
  apply Rabs_le_inv in E1, R. apply Rabs_le. unfold Rdiv. rewrite UV in *. lra.
Qed.

Lemma normalized_err k (p : Point3 f64) : (k <= 450)%Z -> fits_pt k p -> bpow radix2 (-450) <= len3 (val_pt p) ->
  exists q q', normalized p = Ok q /\ normalize p = Ok q' /\ unit_close q p /\ unit_close q' p.
Proof.
  intros Hk HP HL. destruct (norm_err k p Hk HP) as (n & En & Pn & Fn & Dn). destruct HP as ((F1 & B1) & (F2 & B2) & (F3 & B3)). unfold val in B1, B2, B3.
  set (L := len3 (val_pt p)) in *. unfold normalized, normalize. rewrite En. cbn [bind]. fold uu in Dn. unfold val in Pn, Dn.
  pose proof (comp_le (val_pt p)) as (C1 & C2 & C3). fold L in C1, C2, C3. cbn [px py pz val_pt] in C1, C2, C3.
  assert (0 < L) as PL by (eapply Rlt_le_trans; [apply bpow_gt_0|exact HL]).
  assert (bpow radix2 (-535) <= / 4 * uu * L) as T.
  { apply Rle_trans with (/ 4 * uu * bpow radix2 (-450)).
    - unfold uu. change (/ 4) with (bpow radix2 (-2)). rewrite <- !bpow_plus. apply bpow_le. lia.
    - apply Rmult_le_compat_l; [|exact HL]. pose proof uu_pos. lra. }
  assert (Rabs (V64 n - L) <= 7 * uu * L) as DL.
  { assert (0 < uu * L) by (apply Rmult_lt_0_compat; [apply uu_pos|exact PL]). lra. }
  clear Dn T. destruct (ofZ_ok 1 ltac:(vm_compute; discriminate)) as [V1 G1].
  assert (0 < / L) as PD by (apply Rinv_0_lt_compat; exact PL).
  assert (L <> 0) as NL by lra. pose proof uu_val as UV. pose proof uu_pos as UP.
  assert (/ 2 * L <= V64 n) as NB by (apply Rabs_le_inv in DL; rewrite UV in DL; lra).
  assert (0 < V64 n) as PN by lra.
  assert (/ V64 n <= 2 * / L) as IN.
  { apply Rmult_le_reg_r with (V64 n); [exact PN|]. rewrite Rinv_l by lra. apply Rmult_le_reg_l with L; [exact PL|].
    replace (L * (2 * / L * V64 n)) with (2 * V64 n) by (field; exact NL). lra. }
  assert (0 < / V64 n) as IP by (apply Rinv_0_lt_compat; exact PN).
  assert (/ L <= bpow radix2 450) as IL.
  { replace (bpow radix2 450) with (/ bpow radix2 (-450)) by (rewrite <- bpow_opp; reflexivity). apply Rinv_le; [apply bpow_gt_0|exact HL]. }
  assert (Rabs (/ V64 n - / L) <= 7.1 * uu * / L) as EI.
  { replace (/ V64 n - / L) with ((L - V64 n) * (/ V64 n * / L)) by (field; lra).
    rewrite Rabs_mult, (Rabs_pos_eq (/ V64 n * / L)) by (apply Rmult_le_pos; lra). rewrite Rabs_minus_sym.
    assert (L * / V64 n <= 1.001) as LN.
    { apply Rmult_le_reg_r with (V64 n); [exact PN|]. rewrite Rmult_assoc, Rinv_l by lra. apply Rabs_le_inv in DL. rewrite UV in DL. lra. }
    apply Rle_trans with (7 * uu * L * (/ V64 n * / L)); [apply Rmult_le_compat_r; [apply Rmult_le_pos; lra|exact DL]|].
    replace (7 * uu * L * (/ V64 n * / L)) with (7 * uu * / L * (L * / V64 n)) by ring.
    assert (0 <= uu * / L) as UI by (apply Rmult_le_pos; lra).
    assert (uu * / L * (L * / V64 n) <= uu * / L * 1.001) as U1 by (apply Rmult_le_compat_l; [exact UI|exact LN]).
    replace (7 * uu * / L * (L * / V64 n)) with (7 * (uu * / L * (L * / V64 n))) by ring. replace (7.1 * uu * / L) with (7.1 * (uu * / L)) by ring. lra. }
  assert (Rabs (V64 (f64_ofZ 1) / V64 n) <= 2 * / L) as QB.
  { rewrite V1. unfold Rdiv. rewrite Rmult_1_l, Rabs_pos_eq by lra. exact IN. }
  assert (2 * / L <= bpow radix2 1000) as QB2.
  { apply Rle_trans with (bpow radix2 1 * bpow radix2 450); [change (bpow radix2 1) with 2; lra|]. rewrite <- bpow_plus. apply bpow_le. lia. }
  destruct (div_e (f64_ofZ 1) n _ G1 ltac:(lra) QB QB2) as [Ed Fd].
  exists (pmul p (b64_div mode_NE (f64_ofZ 1) n)), (pmul_eq p (b64_div mode_NE (f64_ofZ 1) n)). split; [reflexivity|]. split; [reflexivity|]. unfold unit_close. fold L. cbn zeta.
  set (d := b64_div mode_NE (f64_ofZ 1) n) in *.
  assert (Rabs (V64 d - / L) <= 9 * uu * / L) as ED.
  { pose proof (rounded_rel d _ (1.1 * / L) Ed) as R. rewrite V1 in R. replace (1 / V64 n) with (/ V64 n) in R by (unfold Rdiv; ring).
    assert (/ V64 n <= 1.1 * / L) as IN2 by (apply Rabs_le_inv in EI; rewrite UV in EI; lra).
    specialize (R ltac:(rewrite Rabs_pos_eq by lra; exact IN2)).
    assert (eta <= / 4 * uu * / L) as ET.
    { assert (L <= bpow radix2 460) as LU.
      { assert (in_cube (val_pt p) (bpow radix2 450)) as IC.
        { assert (bpow radix2 k <= bpow radix2 450) as KB by (apply bpow_le; lia). split; [|split]; cbn [px py pz val_pt]; unfold val; lra. }
        apply Rle_trans with (bpow radix2 1 * bpow radix2 450); [|rewrite <- bpow_plus; apply bpow_le; lia].
        eapply Rle_trans; [apply (len3_in_cube _ _ IC), bpow_ge_0|]. pose proof (bpow_gt_0 radix2 450). change (bpow radix2 1) with 2. lra. }
      assert (bpow radix2 (-460) <= / L) as LI.
      { replace (bpow radix2 (-460)) with (/ bpow radix2 460) by (rewrite <- bpow_opp; reflexivity). apply Rinv_le; [exact PL|exact LU]. }
      apply Rle_trans with (/ 4 * uu * bpow radix2 (-460)); [|apply Rmult_le_compat_l; lra].
      unfold eta, uu. change (/ 4) with (bpow radix2 (-2)). rewrite <- !bpow_plus. apply bpow_le. lia. }
    apply Rabs_le_inv in R, EI. apply Rabs_le. rewrite UV in *. lra. }
  destruct (scale_e (px p) d L (/ L) F1 Fd PL C1 eq_refl ED) as [X1 Y1], (scale_e (py p) d L (/ L) F2 Fd PL C2 eq_refl ED) as [X2 Y2], (scale_e (pz p) d L (/ L) F3 Fd PL C3 eq_refl ED) as [X3 Y3].
  split; split; auto.
Qed.

Lemma unit_close_len q p : 0 < len3 (val_pt p) -> unit_close q p -> Rabs (len3 (val_pt q) - 1) <= 20 * bpow radix2 (-53).
Proof.
  intros PL ((_ & E1) & (_ & E2) & (_ & E3)). set (L := len3 (val_pt p)) in *.
  assert (len3 (mkP (val (px p) / L) (val (py p) / L) (val (pz p) / L)) = 1) as U.
  { assert (dot3 (val_pt p) (val_pt p) = L * L) as D by (unfold L, len3; rewrite sqrt_sqrt; [reflexivity|unfold dot3; nra]).
    unfold len3, dot3 in *. cbn [px py pz val_pt] in *. rewrite <- sqrt_1. f_equal.
    replace (val (px p) / L * (val (px p) / L) + val (py p) / L * (val (py p) / L) + val (pz p) / L * (val (pz p) / L))
      with ((val (px p) * val (px p) + val (py p) * val (py p) + val (pz p) * val (pz p)) / (L * L)) by (field; lra).
    rewrite D. field. lra. }
  rewrite <- U. eapply Rle_trans; [apply len3_lip|]. pose proof (bpow_gt_0 radix2 (-53)).
  eapply Rle_trans; [apply (len3_in_cube _ (11 * bpow radix2 (-53)))|]; [|lra|lra]. split; [exact E1|split; [exact E2|exact E3]].
Qed.
