(** The polyline of a curve of doubles: number of points and parameters. *)
From Coq Require Import ZArith List Bool Reals Lra Lia.
From Flocq Require Import Core IEEE754.Binary IEEE754.Bits IEEE754.BinarySingleNaN.
From Verif Require Import Base Num MGeometry MNurbs MStl MF64 SGeom SNurbs SF64 LBase LF64 LF64Ord LF64Arith LBoxF64 LKnotF64 LEvalT LCurveF64 LUniformF64.
Import ListNotations.
Open Scope R_scope.

Notation B e := (bpow radix2 e).
(** The increment of the loop for [n] control points. *)
Definition pdelta (n : Z) : f64 := b64_div mode_NE (f64_ofZ 1) (b64_mult mode_NE (f64_ofZ n) (f64_ofZ 10)).

Section Acc.
Variable n : Z.
Hypothesis Hn : (1 <= n)%Z.
Hypothesis Hb : (10 * n <= 2 ^ 25)%Z.
Let N := IZR (10 * n).
Lemma N_lo : 10 <= N. Proof. unfold N. apply (IZR_le 10). lia. Qed.
Lemma N_hi : N <= B 25. Proof. unfold N. apply (IZR_le _ (2 ^ 25)) in Hb. eapply Rle_trans; [exact Hb|]. rewrite <- (IZR_Zpower radix2) by lia. apply Rle_refl. Qed.
Lemma den_val : V64 (b64_mult mode_NE (f64_ofZ n) (f64_ofZ 10)) = N.
Proof.
  destruct (ofZ_exact n ltac:(lia)) as [A1 A2]. destruct (ofZ_exact 10 ltac:(lia)) as [B1 B2]. destruct (ofZ_exact (10 * n) ltac:(lia)) as [C1 C2].
  assert (V64 (f64_ofZ n) * V64 (f64_ofZ 10) = V64 (f64_ofZ (10 * n))) as E by (rewrite A1, B1, C1, <- mult_IZR; f_equal; lia).
  destruct (mul64 (f64_ofZ n) (f64_ofZ 10) A2 B2) as [M _]; rewrite E, round64_V in *; rewrite ?C1 in *.
  - pose proof N_lo. pose proof N_hi. fold N. rewrite Rabs_pos_eq by lra. apply Rle_lt_trans with (1 := N_hi). apply bpow_lt. lia.
  - exact M.
Qed.
Lemma invN_lo : 0 < / N. Proof. pose proof N_lo. apply Rinv_0_lt_compat. lra. Qed.
Lemma invN_hi : / N <= / 10. Proof. pose proof N_lo. apply Rinv_le_contravar; lra. Qed.
Lemma N_invN : N * / N = 1. Proof. pose proof N_lo. apply Rinv_r. lra. Qed.
Lemma delta_val : Rabs (V64 (pdelta n) - / N) <= B (-53) /\ fin64 (pdelta n) = true.
Proof.
  pose proof N_lo. pose proof invN_lo. pose proof invN_hi. destruct (ofZ_exact 1 ltac:(lia)) as [A1 A2].
  assert (V64 (f64_ofZ 1) / V64 (b64_mult mode_NE (f64_ofZ n) (f64_ofZ 10)) = / N) as E by (rewrite A1, den_val; field; lra).
  assert (Rabs (/ N) <= B 0) as L by (rewrite Rabs_pos_eq by lra; change (B 0) with 1; lra).
  destruct (div64 (f64_ofZ 1) (b64_mult mode_NE (f64_ofZ n) (f64_ofZ 10)) A2) as [D1 D2].
  - rewrite den_val. lra.
  - rewrite E. apply (round64_small _ 0); [lia|exact L|lia].
  - split; [|exact D2]. unfold pdelta. rewrite D1, E. eapply Rle_trans; [apply (round64_err (/ N) 0); [lia|exact L]|]. apply bpow_le. lia.
Qed.
Lemma B_half e : B (e - 1) = B e / 2. Proof. replace (e - 1)%Z with (e + -1)%Z by lia. rewrite bpow_plus. change (B (-1)) with (/ 2). lra. Qed.
Lemma small_err : (N + 1) * B (-52) < / N.
Proof.
  pose proof N_lo. pose proof N_hi. pose proof invN_lo. apply Rmult_lt_reg_l with N; [lra|]. rewrite N_invN.
  assert (N * ((N + 1) * B (-52)) <= B 25 * (B 26 * B (-52))) as K.
  { pose proof (bpow_gt_0 radix2 (-52)). assert (N + 1 <= B 26) by (change (B 26) with (B (25 + 1)); rewrite bpow_plus; change (B 1) with 2; lra).
    apply Rmult_le_compat; [lra|apply Rmult_le_pos; lra|lra|]. apply Rmult_le_compat_r; lra. }
  rewrite <- !bpow_plus in K. change (25 + (26 + -52))%Z with (-1)%Z in K. change (B (-1)) with (/ 2) in K. lra.
Qed.
Lemma acc_val k : (Z.of_nat k <= 10 * n + 1)%Z -> Rabs (V64 (acc (pdelta n) k) - INR k / N) <= INR k * B (-52) /\ fin64 (acc (pdelta n) k) = true.
Proof.
  pose proof N_lo as L1. pose proof invN_lo as L2. pose proof invN_hi as L3. destruct delta_val as [D1 D2]. pose proof small_err as SE. pose proof (bpow_gt_0 radix2 (-52)) as P52.
  induction k as [|k IH]; intros Hk.
  - cbn [acc]. destruct (ofZ_exact 0 ltac:(lia)) as [A1 A2]. split; [|exact A2]. rewrite A1. change (INR 0) with 0. rewrite Rmult_0_l. unfold Rdiv. rewrite Rmult_0_l, Rminus_0_r, Rabs_R0. lra.
  - destruct (IH ltac:(lia)) as [I1 I2]. cbn [acc]. set (a := acc (pdelta n) k) in *.
    assert (INR k <= N) as Hk2 by (rewrite INR_IZR_INZ; unfold N; apply IZR_le; lia).
    assert (0 <= INR k) as Hk3 by apply pos_INR.
    assert (B (-53) = B (-52) / 2) as B53 by exact (B_half (-52)).
    assert (INR k * B (-52) <= N * B (-52)) as Q1 by (apply Rmult_le_compat_r; lra).
    assert (0 <= INR k / N <= 1) as Q2.
    { split; [apply Rmult_le_pos; lra|]. rewrite <- N_invN. apply Rmult_le_compat_r; lra. }
    assert (Rabs (V64 a + V64 (pdelta n)) <= B 1) as Hs.
    { change (B 1) with 2. apply Rabs_le. apply Rabs_le_inv in I1. apply Rabs_le_inv in D1. nra. }
    pose proof (round64_err _ 1 ltac:(lia) Hs) as Er. change (1 - 54)%Z with (-53)%Z in Er.
    destruct (add64 a (pdelta n) I2 D2 (round64_small _ 1 ltac:(lia) Hs ltac:(lia))) as [V F]. split; [|exact F].
    rewrite V, S_INR. apply Rabs_le. apply Rabs_le_inv in I1. apply Rabs_le_inv in D1. apply Rabs_le_inv in Er. unfold Rdiv in *. rewrite !Rmult_plus_distr_r, !Rmult_1_l. lra.
Qed.
Lemma leb1 x : fin64 x = true -> f64_leb x (f64_ofZ 1) = Rleb (V64 x) 1.
Proof.
  intros F. destruct (ofZ_exact 1 ltac:(lia)) as [A1 A2]. rewrite leb_ext by (apply fin_no_nan; assumption). rewrite !ext_fin by assumption. rewrite A1. reflexivity.
Qed.
Lemma acc_lt k : (Z.of_nat k < 10 * n)%Z -> f64_leb (acc (pdelta n) k) (f64_ofZ 1) = true.
Proof.
  intros Hk. destruct (acc_val k ltac:(lia)) as [I F]. rewrite leb1 by exact F. unfold Rleb. destruct (Rle_dec _ _) as [L|L]; [reflexivity|]. exfalso. apply L.
  pose proof N_lo as L1. pose proof invN_lo as L2. pose proof small_err as SE. pose proof (bpow_gt_0 radix2 (-52)) as P52. apply Rabs_le_inv in I.
  assert (INR k <= N - 1) as K by (rewrite INR_IZR_INZ; unfold N; rewrite <- minus_IZR; apply IZR_le; lia).
  assert (INR k / N <= 1 - / N) as K2 by (rewrite <- N_invN at 1; unfold Rdiv; replace (N * / N - / N) with ((N - 1) * / N) by ring; apply Rmult_le_compat_r; lra).
  assert (INR k * B (-52) <= N * B (-52)) by (apply Rmult_le_compat_r; lra). lra.
Qed.
Lemma acc_gt : f64_leb (acc (pdelta n) (S (Z.to_nat (10 * n)))) (f64_ofZ 1) = false.
Proof.
  destruct (acc_val (S (Z.to_nat (10 * n))) ltac:(lia)) as [I F]. rewrite leb1 by exact F. unfold Rleb. destruct (Rle_dec _ _) as [L|L]; [exfalso|reflexivity].
  pose proof N_lo as L1. pose proof invN_lo as L2. pose proof small_err as SE. apply Rabs_le_inv in I.
  assert (INR (S (Z.to_nat (10 * n))) = N + 1) as K by (rewrite S_INR, INR_IZR_INZ, Z2Nat.id by lia; reflexivity).
  rewrite K in I. assert ((N + 1) / N = 1 + / N) as K2 by (field; lra). rewrite K2 in I. lra.
Qed.
End Acc.

Lemma polyline_count n : (1 <= n)%Z -> (10 * n <= 2 ^ 25)%Z -> exists m, (m = Z.to_nat (10 * n) \/ m = S (Z.to_nat (10 * n))) /\
  (m = S (Z.to_nat (10 * n)) <-> f64_leb (acc (pdelta n) (Z.to_nat (10 * n))) (f64_ofZ 1) = true) /\
  (forall j, (j < m)%nat -> f64_leb (acc (pdelta n) j) (f64_ofZ 1) = true) /\ f64_leb (acc (pdelta n) m) (f64_ofZ 1) = false.
Proof.
  intros H1 H2. destruct (f64_leb (acc (pdelta n) (Z.to_nat (10 * n))) (f64_ofZ 1)) eqn:E.
  - exists (S (Z.to_nat (10 * n))). split; [auto|]. split; [tauto|]. split; [|apply acc_gt; assumption].
    intros j Hj. destruct (Nat.eq_dec j (Z.to_nat (10 * n))) as [->|]; [exact E|]. apply acc_lt; lia.
  - exists (Z.to_nat (10 * n)). split; [auto|]. split; [split; [lia|discriminate]|]. split; [|exact E]. intros j Hj. apply acc_lt; lia.
Qed.
Close Scope R_scope.
Open Scope Z_scope.
Lemma polyline_double (c : NurbsCurve f64) : dvalid c -> 10 * vsize (nc_points c) <= 2 ^ 25 ->
  let n := vsize (nc_points c) in
  exists l c', nc_to_polyline c = Ok (l, c') /\ dvalid c' /\ dsame c c' /\
    (vsize l = 10 * n \/ vsize l = 10 * n + 1) /\
    (vsize l = 10 * n + 1 <-> f64_leb (acc (pdelta n) (Z.to_nat (10 * n))) (f64_ofZ 1) = true) /\
    (forall i, 0 <= i < vsize l -> exists (t : f64) p e, vget l i = Ok p /\ nc_evaluate c t = Ok (p, e) /\ fin64 t = true /\
       (Rabs (V64 t - IZR i / IZR (10 * n)) <= IZR i * bpow radix2 (-52))%R /\ t = acc (pdelta n) (Z.to_nat i)).
Proof.
  intros V Hb n. assert (1 <= n) as Hn by (destruct (dvalid_ready _ V) as (_ & _ & D & _); subst n; lia).
  destruct (polyline_count n Hn Hb) as (m & Hm & Hiff & Hlt & Hz).
  destruct (poly_loop c (pdelta n) m V Hlt Hz 0 (Z.to_nat (20 * n + 20)) [] c) as (l & c' & W & V' & S' & Ln & Nt); [lia|lia|exact V|exact (same_curve_refl c)|].
  exists l, c'. split; [|split; [exact V'|split; [exact S'|]]].
  - assert (forall A (x y : A), match nc_points c with [] => x | _ :: _ => y end = y) as K.
    { intros A x y. destruct (nc_points c) eqn:Ep; [|reflexivity]. unfold n in Hn. unfold vsize in Hn. cbn in Hn. lia. }
    unfold nc_to_polyline. rewrite K. fold n. cbn [ndiv F64Num bind]. fold (pdelta n).
    exact (f_equal (fun r : res (f64 * list (Point3 f64) * NurbsCurve f64) => do s <- r; let '(_, poly, c) := s in Ok (poly, c)) W).
  - assert (vsize l = Z.of_nat m) as Sl by (unfold vsize; lia). split; [|split].
    + lia.
    + rewrite <- Hiff. lia.
    + intros i Hi. destruct (Nt (Z.to_nat i) ltac:(lia)) as (p & e & N1 & N2). exists (acc (pdelta n) (Z.to_nat i)), p, e. cbn [Nat.add] in N2.
      destruct (acc_val n Hn Hb (Z.to_nat i) ltac:(lia)) as [A F]. rewrite INR_IZR_INZ, Z2Nat.id in A by lia.
      split; [|split; [exact N2|split; [exact F|split; [exact A|reflexivity]]]].
      unfold vget. replace (i <? 0) with false by (symmetry; apply Z.ltb_ge; lia). rewrite N1. reflexivity.
Qed.

(** Which sizes lose the last point: decided by running the additions. *)
Definition drops_end (n : Z) : bool := negb (f64_leb (acc (pdelta n) (Z.to_nat (10 * n))) (f64_ofZ 1)).
Lemma drops_small : forallb drops_end [2; 4; 5; 6; 10] = true. Proof. vm_compute. reflexivity. Qed.
Lemma keeps_small : forallb (fun n => negb (drops_end n)) [1; 3; 7; 8; 9] = true. Proof. vm_compute. reflexivity. Qed.
Lemma polyline_small (c : NurbsCurve f64) : dvalid c -> vsize (nc_points c) <= 10 ->
  exists l c', nc_to_polyline c = Ok (l, c') /\
    vsize l = 10 * vsize (nc_points c) + (if existsb (Z.eqb (vsize (nc_points c))) [2; 4; 5; 6; 10] then 0 else 1).
Proof.
  intros V Hn. destruct (polyline_double c V ltac:(lia)) as (l & c' & E & _ & _ & S & I & _). exists l, c'. split; [exact E|].
  assert (1 <= vsize (nc_points c)) as H1 by (destruct (dvalid_ready _ V) as (_ & _ & D & _); lia). set (n := vsize (nc_points c)) in *.
  pose proof drops_small as D. pose proof keeps_small as K. rewrite forallb_forall in D, K.
  assert (n = 1 \/ n = 2 \/ n = 3 \/ n = 4 \/ n = 5 \/ n = 6 \/ n = 7 \/ n = 8 \/ n = 9 \/ n = 10) as C by lia.
  assert (In n [2; 4; 5; 6; 10] \/ In n [1; 3; 7; 8; 9]) as [C2|C2].
  { cbn [In]. lia. }
  - specialize (D n C2). unfold drops_end in D. apply negb_true_iff in D. rewrite D in I.
    replace (existsb (Z.eqb n) [2; 4; 5; 6; 10]) with true; [destruct S as [S|S]; [lia|apply I in S; discriminate]|]. symmetry. apply existsb_exists. exists n. split; [exact C2|apply Z.eqb_refl].
  - specialize (K n C2). unfold drops_end in K. rewrite negb_involutive in K. rewrite K in I.
    replace (existsb (Z.eqb n) [2; 4; 5; 6; 10]) with false; [apply I; reflexivity|]. cbn [In] in C2. destruct C2 as [C2|[C2|[C2|[C2|[C2|[]]]]]]; rewrite <- C2; reflexivity.
Qed.

(** The segment from (0,0,0) to (1,0,0), built through the interface. *)
Definition dseg : res (NurbsCurve f64) :=
  do c <- nc_set_degree nc_new 1;
  nc_set_uniform (nc_set_weights (nc_set_points c [mkP (f64_ofZ 0) (f64_ofZ 0) (f64_ofZ 0); mkP (f64_ofZ 1) (f64_ofZ 0) (f64_ofZ 0)]) [f64_ofZ 1; f64_ofZ 1]).
Definition short_of (x : f64) (r : res (list (Point3 f64) * NurbsCurve f64)) : bool :=
  match r with Ok (l, _) => forallb (fun p : Point3 f64 => f64_ltb (px p) x) l | _ => false end.
Definition d96 : f64 := b64_div mode_NE (f64_ofZ 96) (f64_ofZ 100).
Lemma dseg_short : short_of d96 (do c <- dseg; nc_to_polyline c) = true.
Proof. vm_compute. reflexivity. Qed.
Lemma polyline_double_spec (c : NurbsCurve f64) : dvalid c -> 10 * vsize (nc_points c) <= 2 ^ 25 ->
  let n := vsize (nc_points c) in
  exists l c', nc_to_polyline c = Ok (l, c') /\ dvalid c' /\ dsame c c' /\ (vsize l = 10 * n \/ vsize l = 10 * n + 1) /\
    (forall i, 0 <= i < vsize l -> exists (t : f64) p e, vget l i = Ok p /\ nc_evaluate c t = Ok (p, e) /\ fin64 t = true /\
       (Rabs (V64 t - IZR i / IZR (10 * n)) <= IZR i * bpow radix2 (-52))%R).
Proof.
  intros V Hb. destruct (polyline_double c V Hb) as (l & c' & E & V' & S & Sz & _ & P). exists l, c'. do 4 (split; [assumption|]).
  intros i Hi. destruct (P i Hi) as (t & p & e & A & B1 & C & D & _). exists t, p, e. auto.
Qed.
Lemma dseg_valid : exists c, dseg = Ok c /\ dvalid c.
Proof. destruct (build_double 1 [mkP (f64_ofZ 0) (f64_ofZ 0) (f64_ofZ 0); mkP (f64_ofZ 1) (f64_ofZ 0) (f64_ofZ 0)] [f64_ofZ 1; f64_ofZ 1]) as (c & E & V & _); [cbn; lia|reflexivity|cbn; lia|]. exists c. split; [exact E|exact V]. Qed.
Lemma seg_refuted : exists c l c', dseg = Ok c /\ dvalid c /\ nc_to_polyline c = Ok (l, c') /\
  vget (nc_points c) 1 = Ok (mkP (f64_ofZ 1) (f64_ofZ 0) (f64_ofZ 0)) /\ vsize l = 20 /\
  forall p, In p l -> f64_ltb (px p) (b64_div mode_NE (f64_ofZ 96) (f64_ofZ 100)) = true.
Proof.
  destruct (build_double 1 [mkP (f64_ofZ 0) (f64_ofZ 0) (f64_ofZ 0); mkP (f64_ofZ 1) (f64_ofZ 0) (f64_ofZ 0)] [f64_ofZ 1; f64_ofZ 1]) as (c & E & V & D & P & W); [cbn; lia|reflexivity|cbn; lia|].
  assert (vsize (nc_points c) = 2) as N by (rewrite P; reflexivity). destruct (polyline_small c V ltac:(lia)) as (l & c' & E2 & Sz). rewrite N in Sz.
  exists c, l, c'. split; [exact E|]. split; [exact V|]. split; [exact E2|]. split; [rewrite P; reflexivity|]. split; [exact Sz|].
  pose proof dseg_short as K. unfold dseg in K. rewrite E in K. cbn [bind] in K. rewrite E2 in K. cbn [short_of] in K. rewrite forallb_forall in K. exact K.
Qed.
