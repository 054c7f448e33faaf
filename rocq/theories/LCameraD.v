(** The camera in doubles. *)
From Coq Require Import ZArith List Bool Reals Lra Lia Psatz.
From Flocq Require Import Core Relative IEEE754.Binary IEEE754.Bits IEEE754.BinarySingleNaN.
From Verif Require Import Base Num MGeometry MKernel MMesh MMeshRun MTransform MRender MStl MF64 SMesh SGeom SMeasure SRender SCamera SErr SErrN SErrT SErrD SCameraD
  LBase LGeom LTransform LF64 LF64Arith LF64Ord LErr1 LErr2 LErr3 LErr4 LErr5 LErrEx LErrT LErrD LPlaneD LPlaneD2 LPlaneD5.
Import ListNotations.
Open Scope R_scope.

Lemma exact_axes yaw pitch roll d : exact_euler (yaw * kdeg) (pitch * kdeg) (roll * kdeg) d = mkP (dot3 d (right yaw pitch roll)) (dot3 d (down yaw pitch roll)) (dot3 d (sight yaw pitch)).
Proof. unfold exact_euler, right, down, mix, level_right, level_down, sight, dot3. change degree with kdeg. cbn [px py pz]. apply P_eq; cbn [px py pz]; ring. Qed.
Lemma exact_len a b c d : len3 (exact_euler a b c d) = len3 d.
Proof.
  pose proof (exact_euler_iso a b c d O3) as H. unfold dist3 in H.
  replace (exact_euler a b c O3) with O3 in H by (unfold exact_euler, O3; cbn [px py pz]; f_equal; ring).
  assert (forall p, sub3 p O3 = p) as Z. { intros [x y z]. unfold sub3, O3. cbn [px py pz]. f_equal; ring. }
  rewrite !Z in H. exact H.
Qed.

Section Cam.
Variable k : Z.
Hypothesis Hk : (-350 <= k <= 350)%Z.
Notation S0 := (bpow radix2 k).
Notation uS := (uu * bpow radix2 k).
Variables (yaw pitch roll ox oy oz ahead zoom : f64) (cx cy : Z) (e : Euler f64) (p : Point3 f64).
Hypothesis He : stored_euler (13 * bpow radix2 (-53)) e (val yaw * kdeg) (val pitch * kdeg) (val roll * kdeg).
Hypothesis Ho : fits_pt k (mkP ox oy oz).
Hypothesis Ha : fits k ahead.
Hypothesis Hp : fits_pt k p.
Let c := mkCam ox oy oz ahead zoom cx cy e.
Let d := sub3 (val_pt p) (val_pt (mkP ox oy oz)).

Lemma off_ap (x y : f64) : fits k x -> fits k y -> fits (k + 1) (b64_minus mode_NE x y) /\ Rabs (V64 (b64_minus mode_NE x y) - (V64 x - V64 y)) <= uS.
Proof.
  intros Hx Hy. pose proof (ap_sub x y _ _ _ _ _ _ (k + 1) (ap_exact k x Hx) (ap_exact k y Hy)) as A.
  destruct A as (F & E & B); [rewrite (p2 k 1 2) by reflexivity; lra|lia|]. split; [split; [exact F|exact B]|]. rewrite (p2e k 1 0 1) in E by reflexivity. lra.
Qed.

Lemma local_ap : let q := local_ref c p in
  ap (px q) (dot3 d (right (val yaw) (val pitch) (val roll))) (375 * uS) (4 * S0) /\ ap (py q) (dot3 d (down (val yaw) (val pitch) (val roll))) (375 * uS) (4 * S0) /\
  ap (pz q) (dot3 d (sight (val yaw) (val pitch)) + val ahead) (375 * uS) (8 * S0).
Proof.
  cbv zeta. destruct p as [x y z]. destruct Hp as (P1 & P2 & P3), Ho as (O1 & O2 & O3'). cbn [px py pz] in *.
  destruct (off_ap x ox P1 O1) as [Fx Ex]. destruct (off_ap y oy P2 O2) as [Fy Ey]. destruct (off_ap z oz P3 O3') as [Fz Ez].
  set (q := mkP (b64_minus mode_NE x ox) (b64_minus mode_NE y oy) (b64_minus mode_NE z oz)) in *.
  assert (fits_pt (k + 1) q) as Fq by (split; [exact Fx|split; [exact Fy|exact Fz]]).
  pose proof (euler_err (k + 1) ltac:(lia) 13 e _ _ _ q ltac:(lra) He Fq) as C.
  pose proof (exact_euler_iso (val yaw * kdeg) (val pitch * kdeg) (val roll * kdeg) (val_pt q) d) as I.
  assert (dist3 (val_pt q) d <= 1.75 * uS) as D. { unfold dist3. apply len3_in_cube; [|pose proof (Rabs_pos (V64 (b64_minus mode_NE x ox) - (V64 x - V64 ox))); lra]. repeat split; assumption. }
  rewrite <- I in D. unfold dist3 in D.
  assert (len3 d <= 1.75 * (2 * S0)) as L.
  { apply len3_in_cube; [|pose proof (bpow_gt_0 radix2 k); lra]. destruct P1 as [_ P1], P2 as [_ P2], P3 as [_ P3], O1 as [_ O1], O2 as [_ O2], O3' as [_ O3'].
    unfold val_pt in d. cbn [px py pz] in d. unfold d, in_cube, sub3. cbn [px py pz]. repeat split; eapply Rle_trans; try apply Rabs_triang; rewrite ?Rabs_Ropp; try lra. }
  rewrite <- (exact_len (val yaw * kdeg) (val pitch * kdeg) (val roll * kdeg) d) in L.
  pose proof (exact_axes (val yaw) (val pitch) (val roll) d) as X.
  destruct (comp_le (sub3 (exact_euler (val yaw * kdeg) (val pitch * kdeg) (val roll * kdeg) (val_pt q)) (exact_euler (val yaw * kdeg) (val pitch * kdeg) (val roll * kdeg) d))) as (D1 & D2 & D3).
  destruct (comp_le (exact_euler (val yaw * kdeg) (val pitch * kdeg) (val roll * kdeg) d)) as (L1 & L2 & L3).
  destruct C as ((F1 & C1) & (F2 & C2) & (F3 & C3)). replace (k + 1 - 53)%Z with (k + (-52))%Z in C1, C2, C3 by lia. rewrite (pe k (-52) 2) in C1, C2, C3 by reflexivity.
  rewrite X in *. set (ex := exact_euler _ _ _ (val_pt q)) in *. unfold sub3 in D1, D2, D3, D. cbn [px py pz] in *.
  pose proof (LPlaneD2.uS k) as U.
  assert (forall (r : f64) m n, fin64 r = true -> Rabs (V64 r - m) <= (13 * 13 + 15) * (2 * uS) -> Rabs (m - n) <= 1.75 * uS -> Rabs n <= 3.5 * S0 -> ap r n (370 * uS) (3.75 * S0)) as G.
  { intros r m n F A B N. split; [exact F|]. apply Rabs_le_inv in A, B, N. split; apply Rabs_le; lra. }
  assert (ap (px (euler_apply e q)) (dot3 d (right (val yaw) (val pitch) (val roll))) (370 * uS) (3.75 * S0)) as A1 by (apply (G _ (px ex)); [exact F1|exact C1|lra|lra]).
  assert (ap (py (euler_apply e q)) (dot3 d (down (val yaw) (val pitch) (val roll))) (370 * uS) (3.75 * S0)) as A2 by (apply (G _ (py ex)); [exact F2|exact C2|lra|lra]).
  assert (ap (pz (euler_apply e q)) (dot3 d (sight (val yaw) (val pitch))) (370 * uS) (3.75 * S0)) as A3 by (apply (G _ (pz ex)); [exact F3|exact C3|lra|lra]).
  split; [|split].
  - eapply ap_weak; [exact A1|lra|lra].
  - eapply ap_weak; [exact A2|lra|lra].
  - eapply ap_weak; [apply (ap_add _ _ _ _ _ _ _ _ (k + 3) A3 (ap_exact k ahead Ha)); [rewrite (p2 k 3 8) by reflexivity; lra|lia]| |].
    + rewrite (p2e k 3 2 4) by reflexivity. lra.
    + rewrite (p2 k 3 8) by reflexivity. lra.
Qed.

Hypothesis Hz : fits 16 zoom.
Hypothesis Hcx : (Z.abs cx <= 65536)%Z.
Let D := dot3 d (sight (val yaw) (val pitch)) + val ahead.
Hypothesis HD : bpow radix2 (k - 16) <= Rabs D.

Lemma depth_big (z : f64) : ap z D (375 * uS) (8 * S0) -> fin64 z = true /\ S0 / 131072 <= Rabs (V64 z) /\ V64 z <> 0 /\ D <> 0.
Proof.
  intros (F & E & B). pose proof (bpow_gt_0 radix2 k). assert (bpow radix2 (k - 16) = / 65536 * S0) as P by (apply (p2 k (-16)); reflexivity). rewrite P in HD.
  assert (S0 / 131072 <= Rabs (V64 z)) as L. { rewrite uu_val in E. revert HD E. unfold Rabs. repeat destruct Rcase_abs; lra. }
  split; [exact F|]. split; [exact L|]. split; intros Z; [rewrite Z, Rabs_R0 in L; lra|rewrite Z, Rabs_R0 in HD; lra].
Qed.
Lemma pixel_ap (x z : f64) X : ap x X (375 * uS) (4 * S0) -> ap z D (375 * uS) (8 * S0) -> let v := IZR cx + val zoom * (X / D) in Rabs v <= 65536 ->
  ap (nadd (nadd (b64_div mode_NE (nmul x zoom) z) (nofZ cx)) (nlit 1 2)) (v + 1 / 2) (1 / 512) 1048576.
Proof.
  intros Hx Hd v Hv. destruct (depth_big z Hd) as (Fz & Lz & NZ & ND). pose proof (bpow_gt_0 radix2 k) as SP. pose proof uu_val as UV.
  assert (ap (nmul x zoom) (X * val zoom) (377 * 65536 * uS) (262144 * S0)) as (Fn & En & Bn).
  { destruct Hz as [Fo Bo]. eapply ap_weak; [apply (ap_mul x zoom _ _ _ _ _ _ 65536 (k + 18) Hx (ap_exact 16 zoom Hz) Bo); [|lia]| |].
    - rewrite (p2 k 18 262144) by reflexivity. change (bpow radix2 16) with 65536. lra.
    - rewrite (p2e k 18 17 131072) by reflexivity. lra.
    - rewrite (p2 k 18 262144) by reflexivity. lra. }
  set (n := nmul x zoom) in *. destruct Hd as (_ & Ez & Bz).
  assert (Rabs (IZR cx) <= 65536) as HC by (rewrite <- abs_IZR; apply IZR_le; exact Hcx).
  set (Q := val zoom * (X / D)) in *. assert (Rabs Q <= 131072) as HQ. { unfold v in Hv. revert Hv HC. clear. unfold Rabs. repeat destruct Rcase_abs; lra. }
  assert (Rabs (V64 n / V64 z - Q) <= 0.0011) as EQ.
  { replace (V64 n / V64 z - Q) with (((V64 n - X * val zoom) - Q * (V64 z - D)) / V64 z) by (unfold Q; field; split; assumption).
    unfold Rdiv. rewrite Rabs_mult, Rabs_inv. apply Rmult_le_reg_r with (Rabs (V64 z)); [lra|]. rewrite Rmult_assoc, Rinv_l, Rmult_1_r by lra.
    eapply Rle_trans; [apply Rabs_triang|]. rewrite Rabs_Ropp. pose proof (abs_prod _ _ _ _ HQ Ez) as A. change (V64 z) with (V64 z) in *. rewrite UV in *. nra. }
  assert (Rabs (V64 n / V64 z) <= bpow radix2 18) as BQ. { change (bpow radix2 18) with 262144. revert EQ HQ. clear. unfold Rabs. repeat destruct Rcase_abs; lra. }
  destruct (div_e n z _ Fn NZ BQ (le1000 18 ltac:(lia))) as [Ed Fd]. destruct (rounded_pow _ _ 18 Ed ltac:(lia) BQ) as [R1 R2].
  assert (ap (b64_div mode_NE n z) Q 0.0012 (bpow radix2 18)) as A.
  { split; [exact Fd|]. split; [|exact R1]. replace (bpow radix2 (18 - 54)) with (/ 68719476736) in R2 by reflexivity. apply Rabs_le_inv in R2, EQ. apply Rabs_le. lra. }
  destruct (ofZ_ok cx) as [EC FC]; [change (2 ^ 53)%Z with 9007199254740992%Z; lia|].
  assert (ap (nofZ cx : f64) (IZR cx) 0 65536) as AC. { split; [exact FC|]. change (nofZ cx : f64) with (f64_ofZ cx). rewrite EC. split; [rewrite Rminus_diag_eq, Rabs_R0 by reflexivity; lra|exact HC]. }
  destruct half_e as [EH FH]. assert (ap (nlit 1 2 : f64) (1 / 2) 0 (/ 2)) as AH. { split; [exact FH|]. change (V64 (nlit 1 2 : f64) = / 2) in EH. rewrite EH. replace (/ 2 - 1 / 2) with 0 by lra. rewrite Rabs_R0, Rabs_pos_eq by lra. lra. }
  pose proof (ap_add _ _ _ _ _ _ _ _ 19 A AC ltac:(change (bpow radix2 18) with 262144; change (bpow radix2 19) with 524288; lra) ltac:(lia)) as A1.
  pose proof (ap_add _ _ _ _ _ _ _ _ 20 A1 AH ltac:(change (bpow radix2 20) with 1048576; change (bpow radix2 19) with 524288; lra) ltac:(lia)) as A2.
  replace (v + 1 / 2) with (Q + IZR cx + 1 / 2) by (unfold v; ring). eapply ap_weak; [exact A2| |].
  - replace (bpow radix2 (19 - 54)) with (/ 34359738368) by reflexivity. replace (bpow radix2 (20 - 54)) with (/ 17179869184) by reflexivity. lra.
  - change (bpow radix2 20) with 1048576. lra.
Qed.
Lemma inverse_ap (z : f64) : ap z D (375 * uS) (8 * S0) -> fin64 (b64_div mode_NE (n1 : f64) z) = true /\ Rabs (V64 (b64_div mode_NE (n1 : f64) z) * D - 1) <= bpow radix2 (-27).
Proof.
  intros Hd. destruct (depth_big z Hd) as (Fz & Lz & NZ & ND). destruct Hd as (_ & Ez & Bz). pose proof (bpow_gt_0 radix2 k) as SP. pose proof n1_val as V1.
  assert (bpow radix2 (- k) * S0 = 1) as SI by (rewrite <- bpow_plus; replace (- k + k)%Z with 0%Z by lia; reflexivity).
  assert (Rabs (1 / V64 z) <= bpow radix2 (- k + 17)) as BQ.
  { unfold Rdiv. rewrite Rmult_1_l, Rabs_inv. rewrite bpow_plus. change (bpow radix2 17) with 131072. apply Rmult_le_reg_r with (Rabs (V64 z)); [lra|]. rewrite Rinv_l by lra.
    pose proof (bpow_gt_0 radix2 (- k)). nra. }
  destruct (div_e (n1 : f64) z (bpow radix2 (- k + 17)) F1 NZ) as [Ed Fd]; [rewrite V1; exact BQ|apply le1000; lia|]. split; [exact Fd|]. rewrite V1 in Ed.
  destruct (rounded_pow _ _ (- k + 17) Ed ltac:(lia) BQ) as [_ R2]. replace (- k + 17 - 54)%Z with (- k + (- 37))%Z in R2 by lia. rewrite bpow_plus in R2. replace (bpow radix2 (-37)) with (/ 137438953472) in R2 by reflexivity.
  set (w := V64 (b64_div mode_NE (n1 : f64) z)) in *. assert (Rabs D <= 9 * S0) as BD. { rewrite uu_val in Ez. revert Ez Bz SP. clear. unfold Rabs. repeat destruct Rcase_abs; lra. }
  replace (bpow radix2 (-27)) with (/ 134217728) by reflexivity.
  replace (w * D - 1) with ((w - 1 / V64 z) * D + (D - V64 z) / V64 z) by (field; exact NZ).
  eapply Rle_trans; [apply Rabs_triang|].
  assert (Rabs ((w - 1 / V64 z) * D) <= 9 / 137438953472) as T1. { eapply Rle_trans; [apply (abs_prod _ _ _ _ R2 BD)|]. replace (bpow radix2 (- k) * / 137438953472 * (9 * S0)) with (9 / 137438953472 * (bpow radix2 (- k) * S0)) by (unfold Rdiv; ring). rewrite SI. lra. }
  assert (Rabs ((D - V64 z) / V64 z) <= 375 * 131072 / 9007199254740992) as T2.
  { unfold Rdiv at 1. rewrite Rabs_mult, Rabs_inv, Rabs_minus_sym. apply Rmult_le_reg_r with (Rabs (V64 z)); [lra|]. rewrite Rmult_assoc, Rinv_l, Rmult_1_r by lra. rewrite uu_val in Ez. lra. }
  lra.
Qed.
End Cam.

Lemma trunc_ap (s : f64) x : ap s (x + 1 / 2) (1 / 512) 1048576 -> exists z, f64_trunc s = Ok z /\ near_pixel x z.
Proof.
  intros (F & E & B). assert (f64_trunc s = Ok (Ztrunc (V64 s))) as T.
  { assert (IZR (Binary.Btrunc 53 1024 s) = IZR (Ztrunc (V64 s))) as C.
    { rewrite (Binary.Btrunc_correct 53 1024 eq_refl s). unfold round, F2R, scaled_mantissa, cexp, FIX_exp. cbn. rewrite !Rmult_1_r. reflexivity. }
    apply eq_IZR in C. unfold f64_trunc. rewrite C.
    assert (-1048576 <= Ztrunc (V64 s) <= 1048576)%Z as I.
    { apply Rabs_le_inv in B. split; apply le_IZR.
      - destruct (Rle_dec 0 (V64 s)) as [P|P].
        + rewrite Ztrunc_floor by exact P. assert (0 <= Zfloor (V64 s))%Z by (apply Zfloor_lub; exact P). apply IZR_le. lia.
        + rewrite Ztrunc_ceil by lra. pose proof (Zceil_ub (V64 s)). lra.
      - destruct (Rle_dec 0 (V64 s)) as [P|P].
        + rewrite Ztrunc_floor by exact P. pose proof (Zfloor_lb (V64 s)). lra.
        + rewrite Ztrunc_ceil by lra. assert (Zceil (V64 s) <= 0)%Z by (apply Zceil_glb; lra). apply IZR_le. lia. }
    change (Binary.is_finite 53 1024 s) with (fin64 s). rewrite F. unfold int_min, int_max. replace (_ <=? _)%Z with true by (symmetry; apply Z.leb_le; lia). replace (_ <=? _)%Z with true by (symmetry; apply Z.leb_le; lia). reflexivity. }
  exists (Ztrunc (V64 s)). split; [exact T|]. clear T. apply Rabs_le_inv in E. unfold near_pixel. destruct (Rle_dec 0 (V64 s)) as [P|P].
  - rewrite Ztrunc_floor by exact P. pose proof (Zfloor_lb (V64 s)). pose proof (Zfloor_ub (V64 s)). split; [intros _; apply Rabs_le; lra|apply Rabs_def1; lra].
  - rewrite Ztrunc_ceil by lra. pose proof (Zceil_ub (V64 s)). pose proof (Zceil_lb (V64 s)) as LB. split; [intros H1|apply Rabs_def1; lra].
    assert (Zceil (V64 s) <= 0)%Z as G by (apply Zceil_glb; lra). assert (-1 < Zceil (V64 s))%Z as G' by (apply lt_IZR; lra). replace (Zceil (V64 s)) with 0%Z by lia. apply Rabs_le; lra.
Qed.

Lemma screen_doubles (TR : Trig f64) (k : Z) (r : Renderer f64) (o p : Point3 f64) (ahead yaw pitch roll zoom : f64) : good_trig TR -> (-350 <= k <= 350)%Z -> (0 <= rd_X r <= 131072)%Z -> (0 <= rd_Y r <= 131072)%Z ->
  fits 9 yaw -> fits 9 pitch -> fits 9 roll -> fits 16 zoom -> fits k ahead -> fits_pt k o -> fits_pt k p -> let v := mkView (val_pt o) (val ahead) (val yaw) (val pitch) (val roll) in
  in_view k v (val zoom) (rd_X r / 2) (rd_Y r / 2) (val_pt p) ->
  exists r' sx sy w, rd_set_camera r (px o) (py o) (pz o) ahead yaw pitch roll zoom = Ok r' /\ project (rd_cam r') p = Ok (sx, sy, w) /\
    near_pixel (IZR (rd_X r / 2) + val zoom * shown_x v (val_pt p)) sx /\ near_pixel (IZR (rd_Y r / 2) + val zoom * shown_y v (val_pt p)) sy /\ fin w /\ Rabs (val w * depth v (val_pt p) - 1) <= bpow radix2 (-27).
Proof.
  intros G Hk HX HY Hy Hp Hr Hz Ha Ho Pp v (D1 & B1 & B2). destruct o as [ox oy oz]. cbn [px py pz]. destruct (euler_entries TR G yaw pitch roll Hy Hp Hr) as (e & Ee & He).
  assert (0 <= rd_X r / 2 <= 65536)%Z as CX. { split; [apply Z.div_pos; lia|]. apply Z.div_le_upper_bound; lia. }
  assert (0 <= rd_Y r / 2 <= 65536)%Z as CY. { split; [apply Z.div_pos; lia|]. apply Z.div_le_upper_bound; lia. }
  unfold rd_set_camera, cam_set_angles, cam_set_origin, cam_set_screen. rewrite Ee. cbn [bind cam_x cam_y cam_z cam_ahead cam_zoom cam_cx cam_cy cam_rot]. rewrite !Z.quot_div_nonneg by lia.
  set (c := mkCam ox oy oz ahead zoom (rd_X r / 2) (rd_Y r / 2) e).
  pose proof (local_ap k Hk yaw pitch roll ox oy oz ahead zoom (rd_X r / 2) (rd_Y r / 2) e p He Ho Ha Pp) as L. cbv zeta in L. fold c in L. destruct L as (Lx & Ly & Lz).
  set (q := local_ref c p) in *.
  destruct (depth_big k yaw pitch ox oy oz ahead p D1 (pz q) Lz) as (Fz & _ & NZ & _).
  destruct (trunc_ap _ _ (pixel_ap k Hk yaw pitch ox oy oz ahead zoom (rd_X r / 2) p Hz ltac:(lia) D1 (px q) (pz q) _ Lx Lz B1)) as (sx & Ex & Nx).
  destruct (trunc_ap _ _ (pixel_ap k Hk yaw pitch ox oy oz ahead zoom (rd_Y r / 2) p Hz ltac:(lia) D1 (py q) (pz q) _ Ly Lz B2)) as (sy & Ey & Ny).
  destruct (inverse_ap k Hk yaw pitch ox oy oz ahead (rd_X r / 2) p D1 (pz q) Lz) as (Fw & Ew).
  eexists. exists sx, sy, (b64_div mode_NE (n1 : f64) (pz q)). split; [reflexivity|]. cbn [rd_cam]. fold c. split; [|split; [exact Nx|split; [exact Ny|split; [exact Fw|exact Ew]]]].
  unfold project. cbv zeta. fold q. change (cam_zoom c) with zoom. change (cam_cx c) with (rd_X r / 2)%Z. change (cam_cy c) with (rd_Y r / 2)%Z. cbn [bind ndiv F64Num]. 
  change (@ntrunc f64 F64Num) with f64_trunc.
  match goal with |- bind (f64_trunc ?a) _ = _ => change (f64_trunc a) with (f64_trunc (nadd (nadd (b64_div mode_NE (nmul (px q) zoom) (pz q)) (nofZ (rd_X r / 2))) (nlit 1 2))) end.
  rewrite Ex. cbn [bind].
  match goal with |- bind (f64_trunc ?a) _ = _ => change (f64_trunc a) with (f64_trunc (nadd (nadd (b64_div mode_NE (nmul (py q) zoom) (pz q)) (nofZ (rd_Y r / 2))) (nlit 1 2))) end.
  rewrite Ey. cbn [bind].
  assert (f64_eqb (pz q) n0 = false) as Q. { destruct (f64_eqb (pz q) n0) eqn:Q; [|reflexivity]. apply (eqb_fin (pz q) n0 Fz F0) in Q. contradiction. }
  change (@neqb f64 F64Num) with f64_eqb. rewrite Q. reflexivity.
Qed.
Lemma order_doubles (TR : Trig f64) (k : Z) (r r' : Renderer f64) (o p p' : Point3 f64) (ahead yaw pitch roll zoom : f64) sx sy w sx' sy' w' : good_trig TR -> (-350 <= k <= 350)%Z -> (0 <= rd_X r <= 131072)%Z -> (0 <= rd_Y r <= 131072)%Z ->
  fits 9 yaw -> fits 9 pitch -> fits 9 roll -> fits 16 zoom -> fits k ahead -> fits_pt k o -> fits_pt k p -> fits_pt k p' -> let v := mkView (val_pt o) (val ahead) (val yaw) (val pitch) (val roll) in
  in_view k v (val zoom) (rd_X r / 2) (rd_Y r / 2) (val_pt p) -> in_view k v (val zoom) (rd_X r / 2) (rd_Y r / 2) (val_pt p') ->
  rd_set_camera r (px o) (py o) (pz o) ahead yaw pitch roll zoom = Ok r' -> project (rd_cam r') p = Ok (sx, sy, w) -> project (rd_cam r') p' = Ok (sx', sy', w') ->
  0 < depth v (val_pt p) -> depth v (val_pt p) * (1 + bpow radix2 (-25)) <= depth v (val_pt p') -> nltb w' w = true.
Proof.
  intros G Hk HX HY Hy Hp Hr Hz Ha Ho Pp Pp' v V V' E P P' D1 D2.
  destruct (screen_doubles TR k r o p ahead yaw pitch roll zoom G Hk HX HY Hy Hp Hr Hz Ha Ho Pp V) as (r1 & a & b & z & E1 & J & _ & _ & F & W). rewrite E in E1. injection E1 as <-. rewrite P in J. injection J as <- <- <-.
  destruct (screen_doubles TR k r o p' ahead yaw pitch roll zoom G Hk HX HY Hy Hp Hr Hz Ha Ho Pp' V') as (r1 & a & b & z & E1 & J & _ & _ & F' & W'). rewrite E in E1. injection E1 as <-. rewrite P' in J. injection J as <- <- <-.
  fold v in W, W'. set (d := depth v (val_pt p)) in *. set (d' := depth v (val_pt p')) in *. clearbody d d'. clear - D1 D2 W W' F F'.
  change (f64_ltb w' w = true). apply (ltb_fin w' w F' F). change (val w' < val w). replace (bpow radix2 (-27)) with (/ 134217728) in * by reflexivity. replace (bpow radix2 (-25)) with (/ 33554432) in * by reflexivity.
  apply Rabs_le_inv in W, W'. set (x := val w) in *. set (x' := val w') in *. clearbody x x'. assert (0 < d') by lra.
  apply Rmult_lt_reg_r with d'; [assumption|]. apply Rle_lt_trans with (1 + / 134217728); [lra|]. assert (0 < x) by nra.
  assert (x * d * (1 + / 33554432) <= x * d') by nra. nra.
Qed.

(** An image of 640 by 480 pixels, a camera at the origin looking along z, moved back by 1, zoom 100. *)
Lemma camera_case : good_trig correct_trig /\ fits 9 (f64_ofZ 0) /\ fits 16 (f64_ofZ 100) /\ fits 2 (f64_ofZ 1) /\ fits_pt 2 (dp 0 0 0) /\ fits_pt 2 (dp 1 2 3) /\
  let v := mkView (val_pt (dp 0 0 0)) (val (f64_ofZ 1)) (val (f64_ofZ 0)) (val (f64_ofZ 0)) (val (f64_ofZ 0)) in
  in_view 2 v (val (f64_ofZ 100)) (640 / 2) (480 / 2) (val_pt (dp 1 2 3)) /\ depth v (val_pt (dp 1 2 3)) = 4 /\
  IZR (640 / 2) + val (f64_ofZ 100) * shown_x v (val_pt (dp 1 2 3)) = 345 /\ IZR (480 / 2) + val (f64_ofZ 100) * shown_y v (val_pt (dp 1 2 3)) = 190.
Proof.
  assert (forall z, Rabs (IZR z) = IZR (Z.abs z)) as Az by (intros z; rewrite abs_IZR; reflexivity).
  assert (forall k n z, bpow radix2 k = IZR n -> (Z.abs z <= n)%Z -> (n <= 2 ^ 53)%Z -> fits k (f64_ofZ z)) as G by (intros k n z E H H'; apply LPlaneD5.vz_fits; [lia|rewrite Az, E; apply IZR_le; exact H]).
  split; [exact correct_trig_good|]. split; [apply (G 9%Z 512%Z); [reflexivity|lia|lia]|]. split; [apply (G 16%Z 65536%Z); [reflexivity|lia|lia]|]. split; [apply (G 2%Z 4%Z); [reflexivity|lia|lia]|].
  assert (forall x y z, (Z.abs x <= 4)%Z -> (Z.abs y <= 4)%Z -> (Z.abs z <= 4)%Z -> fits_pt 2 (dp x y z)) as B by (intros x y z X Y Z; repeat apply conj; cbn [dp px py pz]; (apply (G 2%Z 4%Z); [reflexivity|lia|lia])).
  split; [apply B; lia|]. split; [apply B; lia|]. cbv zeta.
  assert (forall z, (Z.abs z <= 2 ^ 53)%Z -> val (f64_ofZ z) = IZR z) as V by (intros z H; apply ofZ_ok; exact H).
  assert (val_pt (dp 0 0 0) = mkP 0 0 0) as -> by (unfold val_pt, dp; cbn [px py pz]; rewrite !V by (vm_compute; discriminate); reflexivity).
  assert (val_pt (dp 1 2 3) = mkP 1 2 3) as -> by (unfold val_pt, dp; cbn [px py pz]; rewrite !V by (vm_compute; discriminate); reflexivity).
  rewrite !V by (vm_compute; discriminate). change (640 / 2)%Z with 320%Z. change (480 / 2)%Z with 240%Z. set (v := mkView _ _ _ _ _).
  assert (depth v (mkP 1 2 3) = 4) as D. { unfold depth, v, sight, dot3, sub3. cbn [v_at v_ahead v_yaw v_pitch px py pz]. rewrite !Rmult_0_l, sin_0, cos_0. lra. }
  assert (shown_x v (mkP 1 2 3) = 1 / 4) as X. { unfold shown_x. rewrite D. unfold v, right, mix, level_right, level_down, dot3, sub3. cbn [v_at v_ahead v_yaw v_pitch v_roll px py pz]. rewrite !Rmult_0_l, sin_0, cos_0. lra. }
  assert (shown_y v (mkP 1 2 3) = - (1 / 2)) as Y. { unfold shown_y. rewrite D. unfold v, down, mix, level_right, level_down, dot3, sub3. cbn [v_at v_ahead v_yaw v_pitch v_roll px py pz]. rewrite !Rmult_0_l, sin_0, cos_0. lra. }
  unfold in_view. rewrite D, X, Y. replace (bpow radix2 (2 - 16)) with (/ 16384) by reflexivity. repeat apply conj; try lra; rewrite Rabs_pos_eq; lra.
Qed.
