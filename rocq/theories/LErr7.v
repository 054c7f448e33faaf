(** Rounding errors of one step of the de Boor scheme. *)
From Coq Require Import ZArith List Bool Reals Lra Lia Psatz.
From Flocq Require Import Core Relative Plus_error IEEE754.Binary IEEE754.Bits IEEE754.BinarySingleNaN.
From Verif Require Import Base Num MGeometry MStl MF64 SGeom SErr LBase LGeom LF64 LF64Arith LErr1 LErr2.
Import ListNotations.
Open Scope R_scope.

Lemma uu_small : uu < / 1000000. Proof. rewrite uu_val. lra. Qed.
(** A difference of doubles has a small relative error. *)
Lemma sub_rel (x y : f64) b : fin64 x = true -> fin64 y = true -> Rabs (V64 x - V64 y) <= b -> b <= bpow radix2 1000 ->
  exists d, Rabs d <= uu /\ V64 (b64_minus mode_NE x y) = (V64 x - V64 y) * (1 + d) /\ fin64 (b64_minus mode_NE x y) = true.
Proof.
  intros Fx Fy H Hb. destruct (sub_e x y b Fx Fy H Hb) as [E F].
  destruct (FLT_plus_error_N_ex radix2 (-1074) 53 (fun z => negb (Z.even z)) (V64 x) (- V64 y)) as (d & Hd & Ed).
  - exact (Binary.generic_format_B2R 53 1024 x).
  - apply generic_format_opp. exact (Binary.generic_format_B2R 53 1024 y).
  - exists d. split; [|split; [|exact F]].
    + eapply Rle_trans; [exact Hd|]. assert (u_ro radix2 53 = uu) as ->.
      { unfold u_ro, uu. change (/ 2) with (bpow radix2 (-1)). rewrite <- bpow_plus. reflexivity. }
      pose proof uu_pos. apply Rmult_le_reg_r with (1 + uu); [lra|]. unfold Rdiv. rewrite Rmult_assoc, Rinv_l by lra. nra.
    + rewrite E. exact Ed.
Qed.
Lemma one_fin : fin64 (n1 : f64) = true /\ V64 (n1 : f64) = 1.
Proof. split; [reflexivity|]. exact (proj1 (ofZ_ok 1 ltac:(lia))). Qed.

(** alpha and 1 - alpha. *)
Lemma alpha_err (t a b : f64) : fin64 t = true -> fin64 a = true -> fin64 b = true -> 0 <= V64 a <= V64 t -> V64 t <= V64 b <= 1 -> V64 a < V64 b ->
  let A := (V64 t - V64 a) / (V64 b - V64 a) in
  let al := b64_div mode_NE (b64_minus mode_NE t a) (b64_minus mode_NE b a) in
  let be := b64_minus mode_NE n1 al in
  0 <= A <= 1 /\ fin64 al = true /\ fin64 be = true /\ 0 <= V64 al <= 1 /\ 0 <= V64 be <= 1 /\
  Rabs (V64 al - A) <= 3 * uu /\ Rabs (V64 be - (1 - A)) <= 4 * uu /\ V64 al + V64 be <= 1 + uu.
Proof.
  intros Ft Fa Fb Ha Hb Hab A al be. pose proof uu_pos as U0. pose proof uu_small as U1.
  assert (1 <= bpow radix2 1000) as B1 by (change 1 with (bpow radix2 0); apply bpow_le; lia).
  assert (0 <= A <= 1) as HA.
  { unfold A. split; [apply Rmult_le_pos; [lra|apply Rlt_le, Rinv_0_lt_compat; lra]|]. apply Rmult_le_reg_r with (V64 b - V64 a); [lra|]. unfold Rdiv. rewrite Rmult_assoc, Rinv_l by lra. lra. }
  destruct (sub_e t a 1 Ft Fa ltac:(rewrite Rabs_pos_eq; lra) B1) as [R1 F1].
  destruct (sub_e b a 1 Fb Fa ltac:(rewrite Rabs_pos_eq; lra) B1) as [R2 F2].
  destruct (sub_rel t a 1 Ft Fa ltac:(rewrite Rabs_pos_eq; lra) B1) as (d1 & D1 & E1 & _).
  destruct (sub_rel b a 1 Fb Fa ltac:(rewrite Rabs_pos_eq; lra) B1) as (d2 & D2 & E2 & _).
  set (x := b64_minus mode_NE t a) in *. set (y := b64_minus mode_NE b a) in *.
  apply Rabs_le_inv in D1, D2.
  assert (0 < V64 y) as Py by (rewrite E2; apply Rmult_lt_0_compat; lra).
  assert (0 <= V64 x) as Px by (rewrite E1; apply Rmult_le_pos; lra).
  assert (V64 x <= V64 y) as Lxy by (rewrite R1, R2; apply round_le; [apply FLT_exp_valid; reflexivity|apply valid_rnd_N|lra]).
  set (Q := V64 x / V64 y) in *.
  assert (0 <= Q <= 1) as HQ.
  { unfold Q. split; [apply Rmult_le_pos; [lra|apply Rlt_le, Rinv_0_lt_compat; lra]|]. apply Rmult_le_reg_r with (V64 y); [lra|]. unfold Rdiv. rewrite Rmult_assoc, Rinv_l by lra. lra. }
  assert (Rabs (Q - A) <= 9 / 4 * uu) as EQ.
  { assert (Q - A = A * ((d1 - d2) / (1 + d2))) as ->. { unfold Q, A. rewrite E1, E2. field. split; lra. }
    rewrite Rabs_mult. rewrite (Rabs_pos_eq A) by lra. assert (Rabs ((d1 - d2) / (1 + d2)) <= 9 / 4 * uu) as K.
    { unfold Rdiv. rewrite Rabs_mult, Rabs_inv. rewrite (Rabs_pos_eq (1 + d2)) by lra. apply Rmult_le_reg_r with (1 + d2); [lra|]. rewrite Rmult_assoc, Rinv_l by lra. rewrite Rmult_1_r. apply Rabs_le. split; nra. }
    pose proof (Rabs_pos ((d1 - d2) / (1 + d2))). nra. }
  destruct (div_e x y 1 F1 ltac:(lra) ltac:(fold Q; rewrite Rabs_pos_eq; lra) B1) as [R3 F3]. fold al in R3, F3. fold Q in R3.
  destruct (rounded_pow al Q 0 R3 ltac:(lia) ltac:(change (bpow radix2 0) with 1; rewrite Rabs_pos_eq; lra)) as [K1 K2].
  assert (bpow radix2 (0 - 54) = uu / 2) as HU. { unfold uu. change (0 - 54)%Z with (-53 + -1)%Z. rewrite bpow_plus. change (bpow radix2 (-1)) with (/ 2). unfold Rdiv. reflexivity. }
  rewrite HU in K2. change (bpow radix2 0) with 1 in K1.
  assert (0 <= V64 al) as Pa by (rewrite R3; apply round_ge_generic; [apply FLT_exp_valid; reflexivity|apply valid_rnd_N|apply generic_format_0|lra]).
  assert (V64 al <= 1) as Pa1 by (apply Rabs_le_inv in K1; lra).
  assert (Rabs (V64 al - A) <= 3 * uu) as EA. { replace (V64 al - A) with ((V64 al - Q) + (Q - A)) by ring. eapply Rle_trans; [apply Rabs_triang|]. lra. }
  destruct one_fin as [FO VO].
  assert (Rabs (V64 (n1 : f64) - V64 al) <= 1) as BO by (rewrite VO; rewrite Rabs_pos_eq; lra).
  destruct (sub_e n1 al 1 FO F3 BO B1) as [R4 F4]. fold be in R4, F4. assert (V64 be = round64 (1 - V64 al)) as R5 by (rewrite <- VO; exact R4). clear R4. rename R5 into R4.
  destruct (rounded_pow be (1 - V64 al) 0 R4 ltac:(lia) ltac:(change (bpow radix2 0) with 1; rewrite Rabs_pos_eq; lra)) as [K3 K4]. rewrite HU in K4. change (bpow radix2 0) with 1 in K3.
  assert (0 <= V64 be) as Pb by (rewrite R4; apply round_ge_generic; [apply FLT_exp_valid; reflexivity|apply valid_rnd_N|apply generic_format_0|lra]).
  split; [exact HA|]. split; [exact F3|]. split; [exact F4|]. split; [split; assumption|]. split; [split; [exact Pb|apply Rabs_le_inv in K3; lra]|]. split; [exact EA|]. split.
  - replace (V64 be - (1 - A)) with ((V64 be - (1 - V64 al)) - (V64 al - A)) by ring. eapply Rle_trans; [apply Rabs_triang|]. rewrite Rabs_Ropp. lra.
  - apply Rabs_le_inv in K4. lra.
Qed.

(** [r] is a double within e S of [x]. *)
Definition near (e S : R) (r : f64) (x : R) : Prop := fin64 r = true /\ Rabs (V64 r - x) <= e * S.
Lemma near_weak e e' S r x : 0 <= S -> e <= e' -> near e S r x -> near e' S r x.
Proof. intros HS He [F H]. split; [exact F|]. eapply Rle_trans; [exact H|]. apply Rmult_le_compat_r; assumption. Qed.

Section Comb.
Variables (S : R).
Hypothesis SP : 16 * eta <= uu * S.
Hypothesis SL : S <= bpow radix2 900.
Lemma S_gt : 0 < S. Proof. pose proof eta_pos. pose proof uu_pos. nra. Qed.
Lemma big4 : 4 * S <= bpow radix2 1000.
Proof. apply Rle_trans with (4 * bpow radix2 900); [lra|]. change 4 with (bpow radix2 2). rewrite <- bpow_plus. apply bpow_le. lia. Qed.
(** A product with a coefficient between 0 and 1. *)
Lemma prod_near (x al : f64) X A e de : near e S x X -> Rabs X <= S -> 0 <= e <= 1 -> fin64 al = true -> 0 <= V64 al <= 1 -> Rabs (V64 al - A) <= de ->
  fin64 (b64_mult mode_NE x al) = true /\ Rabs (V64 (b64_mult mode_NE x al) - X * A) <= e * S * V64 al + S * de + 2 * uu * S * V64 al + eta.
Proof.
  intros [Fx Ex] BX He Fa Ba Ea. pose proof S_gt. pose proof uu_pos.
  assert (Rabs (V64 x) <= 2 * S) as B2. { replace (V64 x) with ((V64 x - X) + X) by ring. eapply Rle_trans; [apply Rabs_triang|]. nra. }
  assert (Rabs (V64 x * V64 al) <= 2 * S * V64 al) as B3. { rewrite Rabs_mult, (Rabs_pos_eq (V64 al)) by lra. apply Rmult_le_compat_r; lra. }
  destruct (mul_e x al (2 * S * V64 al) Fx Fa B3) as [E F]. { pose proof big4. nra. }
  split; [exact F|]. pose proof (rounded_rel _ _ _ E B3) as RR.
  replace (V64 (b64_mult mode_NE x al) - X * A) with ((V64 (b64_mult mode_NE x al) - V64 x * V64 al) + (V64 x - X) * V64 al + X * (V64 al - A)) by ring.
  eapply Rle_trans; [apply Rabs_triang|]. pose proof (Rabs_triang (V64 (b64_mult mode_NE x al) - V64 x * V64 al) ((V64 x - X) * V64 al)) as T.
  rewrite (Rabs_mult (V64 x - X)), (Rabs_pos_eq (V64 al)) in T by lra. rewrite (Rabs_mult X).
  assert (Rabs (V64 x - X) * V64 al <= e * S * V64 al) by (apply Rmult_le_compat_r; lra).
  assert (Rabs X * Rabs (V64 al - A) <= S * de) by (apply Rmult_le_compat; auto using Rabs_pos). lra.
Qed.
Lemma prod_near_l (x al : f64) X A e de : near e S x X -> Rabs X <= S -> 0 <= e <= 1 -> fin64 al = true -> 0 <= V64 al <= 1 -> Rabs (V64 al - A) <= de ->
  fin64 (b64_mult mode_NE al x) = true /\ Rabs (V64 (b64_mult mode_NE al x) - X * A) <= e * S * V64 al + S * de + 2 * uu * S * V64 al + eta.
Proof.
  intros N BX He Fa Ba Ea. destruct (prod_near x al X A e de N BX He Fa Ba Ea) as [F H]. destruct N as [Fx Ex]. pose proof S_gt.
  assert (Rabs (V64 x) <= 2 * S) as B2. { replace (V64 x) with ((V64 x - X) + X) by ring. eapply Rle_trans; [apply Rabs_triang|]. nra. }
  assert (Rabs (V64 x * V64 al) <= 2 * S * V64 al) as B3. { rewrite Rabs_mult, (Rabs_pos_eq (V64 al)) by lra. apply Rmult_le_compat_r; lra. }
  assert (2 * S * V64 al <= bpow radix2 1000) as B4 by (pose proof big4; nra).
  destruct (mul_e x al _ Fx Fa B3 B4) as [E _]. rewrite Rmult_comm in B3. destruct (mul_e al x _ Fa Fx B3 B4) as [E' F']. split; [exact F'|]. rewrite E', Rmult_comm, <- E. exact H.
Qed.
Lemma comb_core (p q al be : f64) X Y A e : Rabs X <= S -> Rabs Y <= S -> 0 <= e <= 1 -> 0 <= A <= 1 ->
  0 <= V64 al <= 1 -> 0 <= V64 be <= 1 -> V64 al + V64 be <= 1 + uu -> fin64 p = true -> fin64 q = true ->
  Rabs (V64 p - X * (1 - A)) <= e * S * V64 be + S * (4 * uu) + 2 * uu * S * V64 be + eta ->
  Rabs (V64 q - Y * A) <= e * S * V64 al + S * (3 * uu) + 2 * uu * S * V64 al + eta ->
  near (e + 13 * uu) S (b64_plus mode_NE p q) (X * (1 - A) + Y * A).
Proof.
  intros BX BY He HA Ba Bb Hs F1 F2 E1 E2. pose proof S_gt as S0. pose proof uu_pos as U0. pose proof uu_small as U1. pose proof eta_pos as T0.
  assert (Rabs (V64 p + V64 q - (X * (1 - A) + Y * A)) <= e * S + uu * S + 7 * (uu * S) + 2 * (uu * S) + uu * S / 4) as ES.
  { replace (V64 p + V64 q - (X * (1 - A) + Y * A)) with ((V64 p - X * (1 - A)) + (V64 q - Y * A)) by ring. eapply Rle_trans; [apply Rabs_triang|].
    assert (e * S * V64 be + e * S * V64 al <= e * S + uu * S) as K1. { assert (e * S * (V64 al + V64 be) <= e * S * (1 + uu)) by (apply Rmult_le_compat_l; [nra|lra]). assert (e * S * uu <= uu * S) by (rewrite Rmult_comm, <- Rmult_assoc; nra). lra. }
    assert (2 * uu * S * V64 be + 2 * uu * S * V64 al <= 2 * (uu * S) + uu * S / 8) as K2. { assert (uu * S * (V64 al + V64 be) <= uu * S * (1 + uu)) by (apply Rmult_le_compat_l; [nra|lra]). assert (uu * S * uu <= uu * S / 16) by (unfold Rdiv; apply Rmult_le_compat_l; [nra|lra]). lra. }
    lra. }
  assert (Rabs (X * (1 - A) + Y * A) <= S) as BZ.
  { eapply Rle_trans; [apply Rabs_triang|]. rewrite !Rabs_mult, (Rabs_pos_eq A), (Rabs_pos_eq (1 - A)) by lra. nra. }
  assert (uu * S <= S / 1000000) as US by (unfold Rdiv; rewrite Rmult_comm; apply Rmult_le_compat_l; lra).
  assert (e * S <= S) as eS by nra.
  assert (Rabs (V64 p + V64 q) <= 5 / 2 * S) as B.
  { replace (V64 p + V64 q) with ((V64 p + V64 q - (X * (1 - A) + Y * A)) + (X * (1 - A) + Y * A)) by ring. eapply Rle_trans; [apply Rabs_triang|]. lra. }
  destruct (add_e p q _ F1 F2 B) as [E F]. { pose proof big4. lra. }
  split; [exact F|]. pose proof (rounded_rel _ _ _ E B) as RR.
  replace (V64 (b64_plus mode_NE p q) - (X * (1 - A) + Y * A)) with ((V64 (b64_plus mode_NE p q) - (V64 p + V64 q)) + (V64 p + V64 q - (X * (1 - A) + Y * A))) by ring.
  eapply Rle_trans; [apply Rabs_triang|]. assert (uu * (5 / 2 * S) = 5 / 2 * (uu * S)) as Q by ring. rewrite Q in RR. lra.
Qed.
Lemma comb_near (x y al be : f64) X Y A e : near e S x X -> near e S y Y -> Rabs X <= S -> Rabs Y <= S -> 0 <= e <= 1 -> 0 <= A <= 1 ->
  fin64 al = true -> fin64 be = true -> 0 <= V64 al <= 1 -> 0 <= V64 be <= 1 -> Rabs (V64 al - A) <= 3 * uu -> Rabs (V64 be - (1 - A)) <= 4 * uu -> V64 al + V64 be <= 1 + uu ->
  near (e + 13 * uu) S (b64_plus mode_NE (b64_mult mode_NE x be) (b64_mult mode_NE y al)) (X * (1 - A) + Y * A).
Proof.
  intros Nx Ny BX BY He HA Fa Fb Ba Bb Ea Eb Hs.
  destruct (prod_near x be X (1 - A) e _ Nx BX He Fb Bb Eb) as [F1 E1]. destruct (prod_near y al Y A e _ Ny BY He Fa Ba Ea) as [F2 E2].
  apply (comb_core _ _ al be); assumption.
Qed.
Lemma comb_near_l (x y al be : f64) X Y A e : near e S x X -> near e S y Y -> Rabs X <= S -> Rabs Y <= S -> 0 <= e <= 1 -> 0 <= A <= 1 ->
  fin64 al = true -> fin64 be = true -> 0 <= V64 al <= 1 -> 0 <= V64 be <= 1 -> Rabs (V64 al - A) <= 3 * uu -> Rabs (V64 be - (1 - A)) <= 4 * uu -> V64 al + V64 be <= 1 + uu ->
  near (e + 13 * uu) S (b64_plus mode_NE (b64_mult mode_NE be x) (b64_mult mode_NE al y)) (X * (1 - A) + Y * A).
Proof.
  intros Nx Ny BX BY He HA Fa Fb Ba Bb Ea Eb Hs.
  destruct (prod_near_l x be X (1 - A) e _ Nx BX He Fb Bb Eb) as [F1 E1]. destruct (prod_near_l y al Y A e _ Ny BY He Fa Ba Ea) as [F2 E2].
  apply (comb_core _ _ al be); assumption.
Qed.
End Comb.
