(** Point-normal triangles in doubles. *)
From Coq Require Import ZArith List Bool Reals Lra Lia Psatz.
From Flocq Require Import Core Relative IEEE754.Binary IEEE754.Bits IEEE754.BinarySingleNaN.
From Verif Require Import Base Num MGeometry MBezier MStl MF64 SGeom SBezier SErr SErrN SErrT SPn LBase LGeom LF64 LF64Arith LF64Ord LErr1 LErr2 LErrEx LErrT LPlaneD5.
Import ListNotations.
Open Scope R_scope.

Section Pn.
Variable k : Z.
Hypothesis Hk : (-350 <= k <= 350)%Z.
Let Hk' : (-900 <= k <= 900)%Z. Proof. lia. Qed.
Notation S0 := (bpow radix2 k).

Lemma aps_div x X c i (n j : Z) : aps k x X c i -> (1 <= n <= 6)%Z -> bpow radix2 i <= IZR n * bpow radix2 j -> (0 <= j <= 20)%Z -> aps k (b64_div mode_NE x (f64_ofZ n)) (X / IZR n) (c / IZR n + bpow radix2 j / 2) j.
Proof.
  intros (F & E & B) Hn L Hj. destruct (ofZ_ok n) as [En Fn]; [change (2 ^ 53)%Z with 9007199254740992%Z; lia|]. assert (1 <= IZR n <= 6) as [N1 N6] by (split; apply IZR_le; lia).
  pose proof (bpow_gt_0 radix2 k) as SP. pose proof uu_pos as UP.
  assert (Rabs (V64 x / V64 (f64_ofZ n)) <= bpow radix2 (k + j)) as Q.
  { rewrite En. unfold Rdiv. rewrite Rabs_mult, (Rabs_pos_eq (/ IZR n)) by (left; apply Rinv_0_lt_compat; lra). apply Rmult_le_reg_r with (IZR n); [lra|]. rewrite Rmult_assoc, Rinv_l, Rmult_1_r by lra.
    rewrite bS. eapply Rle_trans; [exact B|]. replace (bpow radix2 j * S0 * IZR n) with (IZR n * bpow radix2 j * S0) by ring. apply Rmult_le_compat_r; lra. }
  destruct (div_e x (f64_ofZ n) _ F ltac:(rewrite En; lra) Q (le1000 (k + j) ltac:(lia))) as [Ed Fd]. destruct (rounded_pow _ _ (k + j) Ed ltac:(lia) Q) as [R1 R2]. rewrite En in R2. rewrite bSe in R2. rewrite bS in R1.
  split; [exact Fd|]. split; [|exact R1].
  replace (V64 (b64_div mode_NE x (f64_ofZ n)) - X / IZR n) with ((V64 (b64_div mode_NE x (f64_ofZ n)) - V64 x / IZR n) + (V64 x - X) / IZR n) by (field; lra).
  eapply Rle_trans; [apply Rabs_triang|]. assert (Rabs ((V64 x - X) / IZR n) <= c / IZR n * (uu * S0)) as A.
  { unfold Rdiv. rewrite Rabs_mult, (Rabs_pos_eq (/ IZR n)) by (left; apply Rinv_0_lt_compat; lra). replace (c * / IZR n * (uu * S0)) with (c * (uu * S0) * / IZR n) by ring. apply Rmult_le_compat_r; [left; apply Rinv_0_lt_compat; lra|exact E]. }
  rewrite Rmult_plus_distr_r. lra.
Qed.

Definition aps_pt (p : Point3 f64) (P : pt3) (c : R) (i : Z) : Prop := aps k (px p) (px P) c i /\ aps k (py p) (py P) c i /\ aps k (pz p) (pz P) c i.
Lemma pt_fits p : fits_pt k p -> aps_pt p (val_pt p) 0 0.
Proof. intros (A & B & C). split; [|split]; apply aps_fits; assumption. Qed.
Lemma pt_add p q P Q c d i j n e : aps_pt p P c i -> aps_pt q Q d j -> bpow radix2 i + bpow radix2 j <= bpow radix2 n -> (0 <= n <= 20)%Z -> c + d + bpow radix2 n / 2 <= e -> aps_pt (padd p q) (add3 P Q) e n.
Proof. intros (A & B & C) (A' & B' & C') L Hn He. split; [|split]; (eapply aps_mono; [eapply (aps_add k Hk'); eassumption|exact He]). Qed.
Lemma pt_sub p q P Q c d i j n e : aps_pt p P c i -> aps_pt q Q d j -> bpow radix2 i + bpow radix2 j <= bpow radix2 n -> (0 <= n <= 20)%Z -> c + d + bpow radix2 n / 2 <= e -> aps_pt (psub p q) (sub3 P Q) e n.
Proof. intros (A & B & C) (A' & B' & C') L Hn He. split; [|split]; (eapply aps_mono; [eapply (aps_sub k Hk'); eassumption|exact He]). Qed.
Lemma pt_div p P c i (n j : Z) e : aps_pt p P c i -> (1 <= n <= 6)%Z -> bpow radix2 i <= IZR n * bpow radix2 j -> (0 <= j <= 20)%Z -> c / IZR n + bpow radix2 j / 2 <= e ->
  exists q, pdiv p (nofZ n) = Ok q /\ aps_pt q (scal3 (/ IZR n) P) e j.
Proof.
  intros (A & B & C) Hn L Hj He. eexists. split; [reflexivity|]. assert (forall x X, aps k x X c i -> aps k (b64_div mode_NE x (f64_ofZ n)) (/ IZR n * X) e j) as G.
  { intros x X H. eapply aps_mono; [|exact He]. replace (/ IZR n * X) with (X / IZR n) by (unfold Rdiv; ring). eapply aps_div; eassumption. }
  split; [|split]; apply G; assumption.
Qed.

Lemma edge_aps (P Q n : Point3 f64) : fits_pt k P -> fits_pt k Q -> fits_pt 1 n -> exists e, pn_edge P Q n = Ok e /\ aps_pt e (pn_exact (val_pt P) (val_pt Q) (val_pt n)) 49 5.
Proof.
  intros HP HQ (N1 & N2 & N3). pose proof (pt_fits P HP) as AP. pose proof (pt_fits Q HQ) as AQ.
  assert (forall x, fits 1 x -> ap x (V64 x) (0 * uu) (bpow radix2 1) /\ Rabs (V64 x) <= bpow radix2 1) as An. { intros x H. split; [eapply ap_weak; [apply (ap_exact 1 x H)|lra|lra]|exact (proj2 H)]. }
  destruct (An _ N1) as [M1 B1], (An _ N2) as [M2 B2], (An _ N3) as [M3 B3].
  destruct (pt_sub Q P _ _ _ _ _ _ 1 1 AQ AP ltac:(pows; lra) ltac:(lia) ltac:(pows; lra)) as (D1 & D2 & D3).
  assert (forall x X y Y c i e, aps k x X c i -> ap y Y (0 * uu) (bpow radix2 1) -> Rabs Y <= bpow radix2 1 -> (0 <= i <= 20)%Z -> 2 * c + bpow radix2 (i + 1) / 2 <= e -> aps k (b64_mult mode_NE x y) (X * Y) e (i + 1)) as mul.
  { intros x X y Y c i e Hx Hy HY Hi He. eapply aps_mono; [apply (aps_mul k Hk' x y X Y c 0 i 1 Hx Hy HY Hi); lia|]. pows. lra. }
  pose proof (mul _ _ _ _ _ _ 4 D1 M1 B1 ltac:(lia) ltac:(change (1 + 1)%Z with 2%Z; pows; lra)) as X1.
  pose proof (mul _ _ _ _ _ _ 4 D2 M2 B2 ltac:(lia) ltac:(change (1 + 1)%Z with 2%Z; pows; lra)) as X2.
  pose proof (mul _ _ _ _ _ _ 4 D3 M3 B3 ltac:(lia) ltac:(change (1 + 1)%Z with 2%Z; pows; lra)) as X3. change (1 + 1)%Z with 2%Z in *.
  pose proof (aps_add k Hk' _ _ _ _ _ _ _ _ 3 X1 X2 ltac:(pows; lra) ltac:(lia)) as W1. pose proof (aps_add k Hk' _ _ _ _ _ _ _ _ 4 W1 X3 ltac:(pows; lra) ltac:(lia)) as W.
  unfold pn_edge. set (w := dot (psub Q P) n). cbv zeta.
  assert (aps k w (dot3 (sub3 (val_pt Q) (val_pt P)) (val_pt n)) 24 4) as W'. { eapply aps_mono; [exact W|]. pows. lra. } clear W W1 X1 X2 X3.
  assert (aps_pt (pmul n w) (scal3 (dot3 (sub3 (val_pt Q) (val_pt P)) (val_pt n)) (val_pt n)) 64 5) as PM.
  { split; [|split]; (apply (mul _ _ _ _ _ _ 64 W'); [assumption|assumption|lia|change (4 + 1)%Z with 5%Z; pows; lra]). }
  pose proof (pt_add P P _ _ _ _ _ _ 1 1 AP AP ltac:(pows; lra) ltac:(lia) ltac:(pows; lra)) as A2. pose proof (pt_add _ Q _ _ _ _ _ _ 2 3 A2 AQ ltac:(pows; lra) ltac:(lia) ltac:(pows; lra)) as A3.
  pose proof (pt_sub _ _ _ _ _ _ _ _ 6 99 A3 PM ltac:(pows; lra) ltac:(lia) ltac:(pows; lra)) as A4.
  destruct (pt_div _ _ _ _ 3 5 49 A4 ltac:(lia) ltac:(pows; lra) ltac:(lia) ltac:(pows; lra)) as (e & E & A). exists e. split; [exact E|].
  replace (pn_exact (val_pt P) (val_pt Q) (val_pt n)) with (scal3 (/ IZR 3) (sub3 (add3 (add3 (val_pt P) (val_pt P)) (val_pt Q)) (scal3 (dot3 (sub3 (val_pt Q) (val_pt P)) (val_pt n)) (val_pt n)))); [exact A|].
  unfold pn_exact, third. set (d := dot3 _ _). clearbody d. unfold sub3, add3, scal3. cbn [px py pz]. apply P_eq; cbn [px py pz]; field.
Qed.
Lemma pt_close p P c i e : aps_pt p P c i -> c <= e -> close_pt p P (e * bpow radix2 (k - 53)).
Proof. intros (A & B & C) H. split; [|split]; eapply (aps_close k); eassumption. Qed.

Lemma pn_doubles (c : CBT f64) (N1 N2 N3 : Point3 f64) : fits_pt k (cP1 c) -> fits_pt k (cP2 c) -> fits_pt k (cP3 c) -> fits_pt 1 N1 -> fits_pt 1 N2 -> fits_pt 1 N3 ->
  exists c', cbt_set_normals c N1 N2 N3 = Ok c' /\ cP1 c' = cP1 c /\ cP2 c' = cP2 c /\ cP3 c' = cP3 c /\
  (forall P Q n e, In (P, Q, n, e) (pn_rows (cP1 c) (cP2 c) (cP3 c) N1 N2 N3 c') -> close_pt e (pn_exact (val_pt P) (val_pt Q) (val_pt n)) (49 * bpow radix2 (k - 53))) /\
  close_pt (ccenter c') (pn_middle (val_pt (cP1 c)) (val_pt (cP2 c)) (val_pt (cP3 c)) (val_pt N1) (val_pt N2) (val_pt N3)) (1100 * bpow radix2 (k - 53)).
Proof.
  intros H1 H2 H3 M1 M2 M3. set (P1 := cP1 c) in *. set (P2 := cP2 c) in *. set (P3 := cP3 c) in *.
  destruct (edge_aps P1 P2 N1 H1 H2 M1) as (e12 & E12 & A12). destruct (edge_aps P2 P1 N2 H2 H1 M2) as (e21 & E21 & A21). destruct (edge_aps P1 P3 N1 H1 H3 M1) as (e13 & E13 & A13).
  destruct (edge_aps P3 P1 N3 H3 H1 M3) as (e31 & E31 & A31). destruct (edge_aps P2 P3 N2 H2 H3 M2) as (e23 & E23 & A23). destruct (edge_aps P3 P2 N3 H3 H2 M3) as (e32 & E32 & A32).
  assert (bpow radix2 8 = 256 /\ bpow radix2 9 = 512 /\ bpow radix2 10 = 1024) as (b8 & b9 & b10) by (repeat split; reflexivity).
  pose proof (pt_add _ _ _ _ _ _ _ _ 6 130 A12 A21 ltac:(pows; lra) ltac:(lia) ltac:(pows; lra)) as S2. pose proof (pt_add _ _ _ _ _ _ _ _ 7 243 S2 A13 ltac:(pows; lra) ltac:(lia) ltac:(pows; lra)) as S3.
  pose proof (pt_add _ _ _ _ _ _ _ _ 8 420 S3 A31 ltac:(rewrite b8; pows; lra) ltac:(lia) ltac:(rewrite b8; lra)) as S4. pose proof (pt_add _ _ _ _ _ _ _ _ 9 725 S4 A23 ltac:(rewrite b8, b9; pows; lra) ltac:(lia) ltac:(rewrite b9; lra)) as S5.
  pose proof (pt_add _ _ _ _ _ _ _ _ 10 1286 S5 A32 ltac:(rewrite b9, b10; pows; lra) ltac:(lia) ltac:(rewrite b10; lra)) as S6.
  destruct (pt_div _ _ _ _ 6 8 343 S6 ltac:(lia) ltac:(rewrite b8, b10; lra) ltac:(lia) ltac:(rewrite b8; lra)) as (E & EE & AE).
  pose proof (pt_add _ _ _ _ _ _ _ _ 1 1 (pt_fits P1 H1) (pt_fits P2 H2) ltac:(pows; lra) ltac:(lia) ltac:(pows; lra)) as V2. pose proof (pt_add _ _ _ _ _ _ _ _ 2 3 V2 (pt_fits P3 H3) ltac:(pows; lra) ltac:(lia) ltac:(pows; lra)) as V3.
  destruct (pt_div _ _ _ _ 3 1 2 V3 ltac:(lia) ltac:(pows; lra) ltac:(lia) ltac:(pows; lra)) as (V & EV & AV).
  pose proof (pt_sub _ _ _ _ _ _ _ _ 9 601 AE AV ltac:(rewrite b8, b9; pows; lra) ltac:(lia) ltac:(rewrite b9; lra)) as D.
  destruct (pt_div _ _ _ _ 2 8 429 D ltac:(lia) ltac:(rewrite b8, b9; lra) ltac:(lia) ltac:(rewrite b8; lra)) as (H & EH & AH).
  pose proof (pt_add _ _ _ _ _ _ _ _ 9 1028 AE AH ltac:(rewrite b8, b9; lra) ltac:(lia) ltac:(rewrite b9; lra)) as F.
  unfold cbt_set_normals. cbv zeta. fold P1 P2 P3. rewrite E12, E21, E13, E31, E23, E32. cbn [bind]. rewrite EE. cbn [bind]. rewrite EV. cbn [bind].
  change (@n2 f64 F64Num) with (@nofZ f64 F64Num 2). rewrite EH. cbn [bind]. eexists. split; [reflexivity|]. cbn [cP1 cP2 cP3 ccenter]. split; [reflexivity|]. split; [reflexivity|]. split; [reflexivity|]. split.
  - intros P Q n e I. unfold pn_rows in I. cbn [c12 c21 c13 c31 c23 c32 In] in I. destruct I as [I|[I|[I|[I|[I|[I|[]]]]]]]; injection I as <- <- <- <-; (eapply pt_close; [eassumption|lra]).
  - apply (pt_close _ _ 1028 9); [|lra]. unfold pn_middle. cbv zeta.
    match goal with |- aps_pt _ ?b _ _ => match type of F with aps_pt _ ?a _ _ => replace b with a; [exact F|] end end. clear.
    unfold mean. cbn [length fold_right]. replace (INR 6) with 6 by (simpl; lra). replace (INR 3) with 3 by (simpl; lra).
    set (x1 := pn_exact (val_pt P1) (val_pt P2) _). set (x2 := pn_exact (val_pt P2) (val_pt P1) _). set (x3 := pn_exact (val_pt P1) (val_pt P3) _).
    set (x4 := pn_exact (val_pt P3) (val_pt P1) _). set (x5 := pn_exact (val_pt P2) (val_pt P3) _). set (x6 := pn_exact (val_pt P3) (val_pt P2) _). clearbody x1 x2 x3 x4 x5 x6.
    unfold add3, sub3, scal3. cbn [px py pz]. apply P_eq; cbn [px py pz]; field.
Qed.

(** The tangent plane. *)
Lemma pn_tangent (P Q n : pt3) (e : Point3 f64) d : close_pt e (pn_exact P Q n) d -> Rabs (px n) <= 2 -> Rabs (py n) <= 2 -> Rabs (pz n) <= 2 ->
  Rabs (dot3 (sub3 (val_pt e) P) n) <= 6 * d + Rabs (dot3 (sub3 Q P) n) * Rabs (1 - dot3 n n) / 3.
Proof.
  intros ((_ & A) & (_ & B) & (_ & C)) X Y Z.
  assert (dot3 (sub3 (val_pt e) P) n = (val (px e) - px (pn_exact P Q n)) * px n + (val (py e) - py (pn_exact P Q n)) * py n + (val (pz e) - pz (pn_exact P Q n)) * pz n + dot3 (sub3 Q P) n * (1 - dot3 n n) / 3) as ->.
  { unfold pn_exact, third, dot3, sub3, add3, scal3, val_pt. cbn [px py pz]. field. }
  eapply Rle_trans; [apply Rabs_triang|]. apply Rplus_le_compat.
  - pose proof (abs_prod _ _ _ _ A X). pose proof (abs_prod _ _ _ _ B Y). pose proof (abs_prod _ _ _ _ C Z). eapply Rle_trans; [apply Rabs_triang|].
    eapply Rle_trans; [apply Rplus_le_compat_r; apply Rabs_triang|]. lra.
  - unfold Rdiv. rewrite !Rabs_mult, (Rabs_pos_eq (/ 3)) by lra. lra.
Qed.
Lemma pn_planes (c : CBT f64) (N1 N2 N3 : Point3 f64) : fits_pt k (cP1 c) -> fits_pt k (cP2 c) -> fits_pt k (cP3 c) -> fits_pt 1 N1 -> fits_pt 1 N2 -> fits_pt 1 N3 ->
  exists c', cbt_set_normals c N1 N2 N3 = Ok c' /\ forall P Q n e, In (P, Q, n, e) (pn_rows (cP1 c) (cP2 c) (cP3 c) N1 N2 N3 c') ->
  Rabs (dot3 (sub3 (val_pt e) (val_pt P)) (val_pt n)) <= 294 * bpow radix2 (k - 53) + Rabs (dot3 (sub3 (val_pt Q) (val_pt P)) (val_pt n)) * Rabs (1 - dot3 (val_pt n) (val_pt n)) / 3.
Proof.
  intros H1 H2 H3 M1 M2 M3. destruct (pn_doubles c N1 N2 N3 H1 H2 H3 M1 M2 M3) as (c' & E & _ & _ & _ & R & _). exists c'. split; [exact E|]. intros P Q n e I. pose proof (R P Q n e I) as A.
  assert (fits_pt 1 n) as ((_ & X) & (_ & Y) & (_ & Z)). { unfold pn_rows in I. cbn [In] in I. destruct I as [I|[I|[I|[I|[I|[I|[]]]]]]]; injection I as <- <- <- <-; assumption. }
  change (bpow radix2 1) with 2 in *. replace (294 * bpow radix2 (k - 53)) with (6 * (49 * bpow radix2 (k - 53))) by ring. apply pn_tangent; assumption.
Qed.
End Pn.

(** An octant of the unit sphere: corners and normals on the axes. *)
Lemma pn_case : fits_pt 0 (dp 1 0 0) /\ fits_pt 0 (dp 0 1 0) /\ fits_pt 0 (dp 0 0 1) /\ fits_pt 1 (dp 1 0 0) /\ fits_pt 1 (dp 0 1 0) /\ fits_pt 1 (dp 0 0 1) /\
  pn_exact (val_pt (dp 1 0 0)) (val_pt (dp 0 1 0)) (val_pt (dp 1 0 0)) = mkP 1 (1 / 3) 0 /\
  pn_middle (val_pt (dp 1 0 0)) (val_pt (dp 0 1 0)) (val_pt (dp 0 0 1)) (val_pt (dp 1 0 0)) (val_pt (dp 0 1 0)) (val_pt (dp 0 0 1)) = mkP (1 / 2) (1 / 2) (1 / 2).
Proof.
  destruct (dp_fits 1 0 0 0) as [Fx0 Ex0]; [lia|vm_compute; discriminate|vm_compute; discriminate|vm_compute; discriminate|].
  destruct (dp_fits 1 0 0 1) as [Fx1 Ex1]; [lia|vm_compute; discriminate|vm_compute; discriminate|vm_compute; discriminate|].
  destruct (dp_fits 0 1 0 0) as [Fy0 Ey0]; [lia|vm_compute; discriminate|vm_compute; discriminate|vm_compute; discriminate|].
  destruct (dp_fits 0 1 0 1) as [Fy1 Ey1]; [lia|vm_compute; discriminate|vm_compute; discriminate|vm_compute; discriminate|].
  destruct (dp_fits 0 0 1 0) as [Fz0 Ez0]; [lia|vm_compute; discriminate|vm_compute; discriminate|vm_compute; discriminate|].
  destruct (dp_fits 0 0 1 1) as [Fz1 Ez1]; [lia|vm_compute; discriminate|vm_compute; discriminate|vm_compute; discriminate|].
  split; [exact Fx0|]. split; [exact Fy0|]. split; [exact Fz0|]. split; [exact Fx1|]. split; [exact Fy1|]. split; [exact Fz1|]. revert Ex0 Ey0 Ez0. clear. generalize (val_pt (dp 1 0 0)), (val_pt (dp 0 1 0)), (val_pt (dp 0 0 1)). intros x y z -> -> ->.
  split.
  - unfold pn_exact, third, dot3, sub3, add3, scal3. cbn [px py pz]. apply P_eq; cbn [px py pz]; field.
  - unfold pn_middle.
    replace (pn_exact (mkP 1 0 0) (mkP 0 1 0) (mkP 1 0 0)) with (mkP 1 (1 / 3) 0) by (unfold pn_exact, third, dot3, sub3, add3, scal3; cbn [px py pz]; apply P_eq; cbn [px py pz]; field).
    replace (pn_exact (mkP 0 1 0) (mkP 1 0 0) (mkP 0 1 0)) with (mkP (1 / 3) 1 0) by (unfold pn_exact, third, dot3, sub3, add3, scal3; cbn [px py pz]; apply P_eq; cbn [px py pz]; field).
    replace (pn_exact (mkP 1 0 0) (mkP 0 0 1) (mkP 1 0 0)) with (mkP 1 0 (1 / 3)) by (unfold pn_exact, third, dot3, sub3, add3, scal3; cbn [px py pz]; apply P_eq; cbn [px py pz]; field).
    replace (pn_exact (mkP 0 0 1) (mkP 1 0 0) (mkP 0 0 1)) with (mkP (1 / 3) 0 1) by (unfold pn_exact, third, dot3, sub3, add3, scal3; cbn [px py pz]; apply P_eq; cbn [px py pz]; field).
    replace (pn_exact (mkP 0 1 0) (mkP 0 0 1) (mkP 0 1 0)) with (mkP 0 1 (1 / 3)) by (unfold pn_exact, third, dot3, sub3, add3, scal3; cbn [px py pz]; apply P_eq; cbn [px py pz]; field).
    replace (pn_exact (mkP 0 0 1) (mkP 0 1 0) (mkP 0 0 1)) with (mkP 0 (1 / 3) 1) by (unfold pn_exact, third, dot3, sub3, add3, scal3; cbn [px py pz]; apply P_eq; cbn [px py pz]; field).
    match goal with |- context [mean (mkP 1 (1 / 3) 0 :: ?l)] => replace (mean (mkP 1 (1 / 3) 0 :: l)) with (mkP (4 / 9) (4 / 9) (4 / 9)) end.
    2: { unfold mean. cbn [length fold_right]. replace (INR 6) with 6 by (simpl; lra). unfold add3, scal3. cbn [px py pz]. apply P_eq; cbn [px py pz]; field. }
    unfold mean. cbn [length fold_right]. replace (INR 3) with 3 by (simpl; lra). unfold sub3, add3, scal3. cbn [px py pz]. apply P_eq; cbn [px py pz]; field.
Qed.
