(** Volume, area and orientation of meshes of doubles that have been moved, turned or scaled. *)
From Coq Require Import ZArith List Bool Reals Lra Lia Psatz Permutation.
From Flocq Require Import Core Relative IEEE754.Binary IEEE754.Bits IEEE754.BinarySingleNaN.
From Verif Require Import Base Num MGeometry MKernel MMesh MMeshRun MMeasure MTransform MStl MF64 SMesh SReach SGeom SMeasure SDegrees SErr SErrN SErrT SErrD SErrM
  LClosed LBase LMesh LReach LGeom LTransform LMeasure LMeasure2 LDegrees LF64 LF64Arith LErr1 LErr2 LErr3 LErr4 LErr5 LMeshFac2 LErrEx LErrT LErrD LErrR LErrF.
Import ListNotations.
Open Scope R_scope.

Lemma sums_near2 {A} (h1 h2 : A -> R) c l : (forall t, In t l -> Rabs (h1 t - h2 t) <= c) -> Rabs (sumR (map h1 l) - sumR (map h2 l)) <= IZR (len l) * c.
Proof.
  induction l as [|f l IH]; intros H. { cbn. rewrite Rminus_0_r, Rabs_R0. lra. }
  assert (IZR (len (f :: l)) = 1 + IZR (len l)) as L. { change (f :: l) with ([f] ++ l). rewrite len_app, plus_IZR. reflexivity. }
  rewrite L. cbn [map sumR fold_right]. fold (sumR (map h1 l)). fold (sumR (map h2 l)).
  pose proof (H f (or_introl eq_refl)) as A0. pose proof (IH (fun x Hx => H x (or_intror Hx))) as B. apply Rabs_le_inv in A0, B. apply Rabs_le. lra.
Qed.
Lemma moved_by (m : Mesh f64) a (F : Point3 f64 -> Point3 f64) (Tr : pt3 -> pt3) k K e : (-200 <= K <= 200)%Z -> 0 <= e -> reach m -> shows m a -> Forall (fits_pt k) (averts a) -> (len (live a) <= 2 ^ 50)%Z ->
  (forall p, fits_pt k p -> fits_pt K (F p) /\ rnear (bpow radix2 K) e (val_pt (F p)) (Tr (val_pt p))) ->
  let n := IZR (len (live a)) in let X := sumR (map vol_tri (map (m3 Tr) (faces (val_mesh a)))) in let Y := sumR (map area_tri (map (m3 Tr) (faces (val_mesh a)))) in
  exists m' v s, apply_transform m F = Ok m' /\ volume m' = Ok v /\ close_to v X (vol_err n K e) /\ surface m' = Ok s /\ close_to s Y (area_err n K e) /\
  (vol_err n K e < X -> is_oriented_outside m' = Ok true) /\ (X < - vol_err n K e -> is_oriented_outside m' = Ok false).
Proof.
  intros HK He R S HF HL H n X Y. destruct (transform_shows m a F R S) as (m' & E & R' & S'). set (b := mkA (map F (averts a)) (atris a) (acolor a)) in *.
  assert (Forall (fits_pt K) (averts b)) as FB. { unfold b. cbn [averts]. apply Forall_forall. intros q Hq. apply in_map_iff in Hq. destruct Hq as (p & <- & Hp). apply H. exact (proj1 (Forall_forall _ _) HF p Hp). }
  assert (live b = live a) as LB by reflexivity.
  assert (forall x y z, In (x, y, z) (live a) -> (0 <= x < len (averts a))%Z /\ (0 <= y < len (averts a))%Z /\ (0 <= z < len (averts a))%Z) as LI.
  { assert (a = abs m) as -> by (apply (shows_unique m); [exact S|apply shows_abs]). intros x y z I. apply (live_in m x y z (reach_wf m R) I). }
  assert (forall i, (0 <= i < len (averts a))%Z -> pt b i zero_pt = F (pt a i zero_pt)) as PT.
  { intros i Hi. unfold pt, b. cbn [averts]. rewrite (nth_indep _ zero_pt (F zero_pt)) by (rewrite map_length; unfold len in Hi; lia). apply map_nth. }
  assert (forall i, (0 <= i < len (averts a))%Z -> rnear (bpow radix2 K) e (val_pt (pt b i zero_pt)) (Tr (val_pt (pt a i zero_pt)))) as NR.
  { intros i Hi. rewrite (PT i Hi). apply H. apply pt_fits. exact HF. }
  assert (Rabs (total_vol (val_mesh b) - X) <= n * (3 * (bpow radix2 K * bpow radix2 K * e))) as MV.
  { unfold total_vol, X. rewrite !faces_val, !map_map, LB. apply sums_near2. intros [[x y] z] I. destruct (LI x y z I) as (I1 & I2 & I3). apply tetra_near; [exact He|apply NR; assumption|apply NR; assumption|apply NR; assumption]. }
  assert (Rabs (total_area (val_mesh b) - Y) <= n * (14 * (bpow radix2 K * e))) as MA.
  { unfold total_area, Y. rewrite !faces_val, !map_map, LB. apply sums_near2. intros [[x y] z] I. destruct (LI x y z I) as (I1 & I2 & I3). apply area_near; [exact He|apply NR; assumption|apply NR; assumption|apply NR; assumption]. }
  destruct (reach_volume_err m' b K R' S' HK FB HL) as (v & Ev & Fv & Dv). destruct (reach_surface_err m' b K R' S' HK FB HL) as (s & Es & Fs & Ds). destruct (reach_oriented_err m' b K R' S' HK FB HL) as [O1 O2].
  cbn zeta in Dv, Ds, O1, O2. rewrite LB in Dv, Ds, O1, O2. fold n in Dv, Ds, O1, O2. unfold vol_err, area_err. apply Rabs_le_inv in MV, MA, Dv, Ds.
  exists m', v, s. split; [exact E|]. split; [exact Ev|]. split; [split; [exact Fv|apply Rabs_le; lra]|]. split; [exact Es|]. split; [split; [exact Fs|apply Rabs_le; lra]|].
  split; intros W; [apply O1|apply O2]; lra.
Qed.
Lemma near_of_dist k q P d : finite_points [q] -> dist3 (val_pt q) P <= d -> len3 P <= 1.75 * bpow radix2 k -> d <= 0.25 * bpow radix2 k -> fits_pt (k + 1) q /\ rnear (bpow radix2 (k + 1)) d (val_pt q) P.
Proof.
  intros Fq D L S. inversion Fq as [|? ? (F1 & F2 & F3) _]; subst. assert (bpow radix2 (k + 1) = 2 * bpow radix2 k) as K1 by (rewrite bpow_plus; change (bpow radix2 1) with 2; ring).
  pose proof (bpow_gt_0 radix2 k) as B0. destruct (comp_le P) as (P1 & P2 & P3). destruct (comp_le (sub3 (val_pt q) P)) as (Q1 & Q2 & Q3). unfold dist3 in D. unfold sub3, val_pt in Q1, Q2, Q3. cbn [px py pz] in Q1, Q2, Q3. fold (val_pt q) in Q1, Q2, Q3.
  change (mkP (val (px q) - px P) (val (py q) - py P) (val (pz q) - pz P)) with (sub3 (val_pt q) P) in Q1, Q2, Q3.
  assert (forall x y, Rabs (x - y) <= d -> Rabs y <= 1.75 * bpow radix2 k -> Rabs x <= 2 * bpow radix2 k) as M.
  { intros x y A C. apply Rabs_le_inv in A, C. apply Rabs_le. lra. }
  assert (Rabs (val (px q) - px P) <= d) as A1 by lra. assert (Rabs (val (py q) - py P) <= d) as A2 by lra. assert (Rabs (val (pz q) - pz P) <= d) as A3 by lra.
  rewrite K1. pose proof (M _ _ A1 ltac:(lra)) as M1. pose proof (M _ _ A2 ltac:(lra)) as M2. pose proof (M _ _ A3 ltac:(lra)) as M3.
  split; [unfold fits_pt, fits; rewrite K1; auto|]. unfold rnear, val_pt. cbn [px py pz]. split; [auto|]. split; [|auto]. split; [|split]; lra.
Qed.
Lemma slack_bound k a p : fits 9 a -> fits_pt k p -> len3 (val_pt p) <= 1.75 * bpow radix2 k /\ slack (val a) (len3 (val_pt p)) <= 9300 * bpow radix2 (k - 53).
Proof.
  intros [_ Ha] ((_ & H1) & (_ & H2) & (_ & H3)). pose proof (bpow_gt_0 radix2 k) as B0. assert (len3 (val_pt p) <= 1.75 * bpow radix2 k) as L.
  { apply len3_in_cube; [split; [exact H1|split; assumption]|lra]. }
  split; [exact L|]. change (bpow radix2 9) with 512 in Ha. unfold slack. pose proof (Rabs_pos (val a)). pose proof (len3_nonneg (val_pt p)).
  replace (bpow radix2 (k - 53)) with (bpow radix2 k * uu) by (unfold uu; rewrite <- bpow_plus; reflexivity). rewrite uu_val.
  apply Rle_trans with (512 * (115 / 100000000000000000) * (1.75 * bpow radix2 k)); [apply Rmult_le_compat; [nra|lra|nra|exact L]|]. lra.
Qed.
(** ** Rigid motions *)
Lemma orient_vol f fs : keeps_orientation f -> f O3 = O3 -> sumR (map vol_tri (map (m3 f) fs)) = sumR (map vol_tri fs).
Proof.
  intros K Z. rewrite map_map. apply sumR_ext. intros [[p q] r] _. cbn. unfold tetra_vol. specialize (K O3 p q r). rewrite Z in K.
  assert (forall x, sub3 x O3 = x) as Z0 by (intros [x y z]; unfold sub3, O3; cbn [px py pz]; apply P_eq; ring). rewrite !Z0 in K. rewrite K. reflexivity.
Qed.
Lemma iso_area f fs : isometry f -> sumR (map area_tri (map (m3 f) fs)) = sumR (map area_tri fs).
Proof. intros I. rewrite map_map. apply sumR_ext. intros [[p q] r] _. cbn. apply area_isometry. exact I. Qed.
Lemma rod_O u th : len3 u = 1 -> rodrigues u th O3 = O3.
Proof. intros L. destruct (rodrigues_rigid u th L) as (_ & _ & Fx). specialize (Fx 0). replace (scal3 0 u) with O3 in Fx by pring. exact Fx. Qed.
Lemma turned64 (TR : Trig f64) (angle : f64) (j : Z) (w : Point3 f64) (m : Mesh f64) a k : good_trig TR -> fits 9 angle -> (j <= 450)%Z -> fits_pt j w -> bpow radix2 (-450) <= len3 (val_pt w) ->
  reach m -> shows m a -> (-190 <= k <= 190)%Z -> Forall (fits_pt k) (averts a) -> (len (live a) <= 2 ^ 50)%Z ->
  let n := IZR (len (live a)) in let e := 12300 * bpow radix2 (k - 53) in let ev := vol_err n (k + 1) e in
  exists ax M Q, normalized w = Ok ax /\ mat_from_angle_axis angle ax = Ok M /\ quat_from_angle_axis angle ax = Ok Q /\ forall F, In F [mat_apply M; quat_apply Q] ->
  exists m' v s, apply_transform m F = Ok m' /\ volume m' = Ok v /\ close_to v (total_vol (val_mesh a)) ev /\ surface m' = Ok s /\ close_to s (total_area (val_mesh a)) (area_err n (k + 1) e) /\
  (ev < total_vol (val_mesh a) -> is_oriented_outside m' = Ok true) /\ (total_vol (val_mesh a) < - ev -> is_oriented_outside m' = Ok false).
Proof.
  intros G Ha Hj Hw Hl R S Hk HF HL n e ev. destruct (about64 TR angle j w G Ha Hj Hw Hl) as (ax & M & Q & E1 & E2 & E3 & D). exists ax, M, Q. split; [exact E1|]. split; [exact E2|]. split; [exact E3|]. intros F HFin.
  assert (len3 (direction (val_pt w)) = 1) as U. { apply direction_unit. pose proof (bpow_gt_0 radix2 (-450)). lra. }
  set (Tr := turn_deg (direction (val_pt w)) (val angle)). destruct (rodrigues_rigid (direction (val_pt w)) (val angle * (PI / 180)) U) as (I & K & _).
  assert (0 <= e) as He by (unfold e; pose proof (bpow_ge_0 radix2 (k - 53)); lra).
  assert (bpow radix2 (k - 53) = bpow radix2 k * uu) as KU by (unfold uu; rewrite <- bpow_plus; reflexivity).
  destruct (moved_by m a F Tr k (k + 1) e ltac:(lia) He R S HF HL) as (m' & v & s & B).
  - intros p Hp. destruct (D k p ltac:(lia) Hp) as (Fn & Dm & Dq). destruct (slack_bound k angle p Ha Hp) as [L SL].
    assert (finite_points [F p] /\ dist3 (val_pt (F p)) (Tr (val_pt p)) <= e) as [Ff Df].
    { pose proof (bpow_ge_0 radix2 (k - 53)). inversion Fn as [|? ? F1 F2]; subst. destruct HFin as [<-|[<-|[]]]; (split; [|unfold Tr, e; lra]); [constructor; [exact F1|constructor]|exact F2]. }
    apply near_of_dist; [exact Ff|exact Df| |].
    + unfold Tr, turn_deg. rewrite rodrigues_len by exact U. exact L.
    + unfold e. rewrite KU, uu_val. pose proof (bpow_gt_0 radix2 k). lra.
  - unfold Tr, turn_deg in B. cbn zeta in B. rewrite (orient_vol _ _ K (rod_O _ _ U)), (iso_area _ _ I) in B. exists m', v, s. exact B.
Qed.

(** ** Euler angles: a mirror image *)
Lemma mirror_vol fs : sumR (map vol_tri (map (m3 mirror_y) fs)) = - sumR (map vol_tri fs).
Proof.
  rewrite map_map. replace (- sumR (map vol_tri fs)) with ((-1) * sumR (map vol_tri fs)) by ring. apply sumR_scale. intros [[p q] r] _. cbn. unfold tetra_vol, det3, dot3, cross3, mirror_y. cbn [px py pz]. field.
Qed.
Lemma mirror_iso : isometry mirror_y.
Proof. intros p q. unfold dist3, len3, dot3, sub3, mirror_y. cbn [px py pz]. f_equal. ring. Qed.
Lemma m3_comp {A B C} (f : B -> C) (g : A -> B) l : map (m3 (fun p => f (g p))) l = map (m3 f) (map (m3 g) l).
Proof. rewrite map_map. apply map_ext. intros [[p q] r]. reflexivity. Qed.
Lemma axis_len : len3 (mkP 1 0 0) = 1 /\ len3 (mkP 0 1 0) = 1 /\ len3 (mkP 0 0 1) = 1.
Proof. unfold len3, dot3. cbn [px py pz]. split; [|split]; (etransitivity; [|apply sqrt_1]); f_equal; ring. Qed.
Lemma iso_comp f g : isometry f -> isometry g -> isometry (fun p => f (g p)).
Proof. intros F G p q. rewrite F. apply G. Qed.
Lemma euler_turned64 (TR : Trig f64) (yaw pitch roll : f64) (m : Mesh f64) a k : good_trig TR -> fits 9 yaw -> fits 9 pitch -> fits 9 roll ->
  reach m -> shows m a -> (-190 <= k <= 190)%Z -> Forall (fits_pt k) (averts a) -> (len (live a) <= 2 ^ 50)%Z ->
  let n := IZR (len (live a)) in let e := 28300 * bpow radix2 (k - 53) in let ev := vol_err n (k + 1) e in
  exists u m' v s, euler_set yaw pitch roll = Ok u /\ apply_transform m (euler_apply u) = Ok m' /\ volume m' = Ok v /\ close_to v (- total_vol (val_mesh a)) ev /\ surface m' = Ok s /\ close_to s (total_area (val_mesh a)) (area_err n (k + 1) e) /\
  (ev < total_vol (val_mesh a) -> is_oriented_outside m' = Ok false) /\ (total_vol (val_mesh a) < - ev -> is_oriented_outside m' = Ok true).
Proof.
  intros G Hy Hp Hr R S Hk HF HL n e ev. destruct (euler_degrees64 TR G yaw pitch roll Hy Hp Hr) as (u & E & D). exists u. destruct axis_len as (UX & UY & UZ).
  set (Tr := fun p => turn_deg (mkP 0 0 1) (- val roll) (turn_deg (mkP 1 0 0) (- val pitch) (mirror_y (turn_deg (mkP 0 1 0) (val yaw) p)))).
  destruct (rodrigues_rigid _ (val yaw * (PI / 180)) UY) as (IY & KY & _). destruct (rodrigues_rigid _ (- val pitch * (PI / 180)) UX) as (IX & KX & _). destruct (rodrigues_rigid _ (- val roll * (PI / 180)) UZ) as (IZ & KZ & _).
  assert (0 <= e) as He by (unfold e; pose proof (bpow_ge_0 radix2 (k - 53)); lra).
  assert (bpow radix2 (k - 53) = bpow radix2 k * uu) as KU by (unfold uu; rewrite <- bpow_plus; reflexivity).
  assert (isometry Tr) as IT. { unfold Tr, turn_deg. apply iso_comp; [exact IZ|]. apply iso_comp; [exact IX|]. apply iso_comp; [exact mirror_iso|exact IY]. }
  assert (Tr O3 = O3) as TO. { unfold Tr, turn_deg. rewrite (rod_O _ _ UY). replace (mirror_y O3) with O3 by (unfold mirror_y, O3; cbn [px py pz]; apply P_eq; ring). rewrite (rod_O _ _ UX). apply (rod_O _ _ UZ). }
  destruct (moved_by m a (euler_apply u) Tr k (k + 1) e ltac:(lia) He R S HF HL) as (m' & v & s & B).
  - intros p Hv. destruct (D k p ltac:(lia) Hv) as (Fn & Dm). destruct (slack_bound k yaw p Hy Hv) as [L S1]. destruct (slack_bound k pitch p Hp Hv) as [_ S2]. destruct (slack_bound k roll p Hr Hv) as [_ S3].
    apply near_of_dist; [exact Fn| | |].
    + fold (Tr (val_pt p)) in Dm. unfold e. pose proof (bpow_ge_0 radix2 (k - 53)). lra.
    + specialize (IT (val_pt p) O3). rewrite TO in IT. assert (forall x, dist3 x O3 = len3 x) as Z0. { intros [x y z]. unfold dist3, sub3, O3. cbn [px py pz]. f_equal. apply P_eq; ring. } rewrite !Z0 in IT. rewrite IT. exact L.
    + unfold e. rewrite KU, uu_val. pose proof (bpow_gt_0 radix2 k). lra.
  - cbn zeta in B. rewrite (iso_area _ _ IT) in B. unfold Tr, turn_deg in B.
    rewrite (m3_comp (rodrigues (mkP 0 0 1) (- val roll * (PI / 180))) (fun p => rodrigues (mkP 1 0 0) (- val pitch * (PI / 180)) (mirror_y (rodrigues (mkP 0 1 0) (val yaw * (PI / 180)) p)))) in B.
    rewrite (m3_comp (rodrigues (mkP 1 0 0) (- val pitch * (PI / 180))) (fun p => mirror_y (rodrigues (mkP 0 1 0) (val yaw * (PI / 180)) p))) in B.
    rewrite (m3_comp mirror_y (rodrigues (mkP 0 1 0) (val yaw * (PI / 180)))) in B.
    rewrite (orient_vol _ _ KZ (rod_O _ _ UZ)), (orient_vol _ _ KX (rod_O _ _ UX)), mirror_vol, (orient_vol _ _ KY (rod_O _ _ UY)) in B.
    fold (total_vol (val_mesh a)) in B. fold (total_area (val_mesh a)) in B. fold n in B. fold ev in B. destruct B as (B1 & B2 & B3 & B4 & B5 & B6 & B7).
    exists m', v, s. split; [exact E|]. split; [exact B1|]. split; [exact B2|]. split; [exact B3|]. split; [exact B4|]. split; [exact B5|]. split; intros W; [apply B7|apply B6]; lra.
Qed.

(** ** Translations and scalings *)
Lemma close_rnear K p P e : close_pt p P e -> fits_pt K p -> in_cube P (bpow radix2 K) -> fits_pt K p /\ rnear (bpow radix2 K) e (val_pt p) P.
Proof. intros ((_ & A) & (_ & B) & (_ & C)) H I. split; [exact H|]. destruct H as ((_ & H1) & (_ & H2) & (_ & H3)). split; [split; [|split]; assumption|]. split; [exact I|]. split; [|split]; assumption. Qed.
Lemma close_fits K p P e : close_pt p P e -> (forall x, In x [px P; py P; pz P] -> Rabs x + e <= bpow radix2 K) -> fits_pt K p.
Proof.
  intros ((F1 & A) & (F2 & B) & (F3 & C)) H. pose proof (H _ (or_introl eq_refl)). pose proof (H _ (or_intror (or_introl eq_refl))). pose proof (H _ (or_intror (or_intror (or_introl eq_refl)))).
  assert (forall x y, Rabs (x - y) <= e -> Rabs x <= Rabs y + e) as T. { intros x y D. pose proof (Rabs_triang_inv x y). lra. }
  apply T in A, B, C. split; [|split]; (split; [assumption|lra]).
Qed.
Lemma translated64 (t : Point3 f64) (m : Mesh f64) a k : reach m -> shows m a -> (-190 <= k <= 190)%Z -> fits_pt k t -> Forall (fits_pt k) (averts a) -> (len (live a) <= 2 ^ 50)%Z -> closed_surface (faces (val_mesh a)) ->
  let n := IZR (len (live a)) in let e := bpow radix2 (k - 53) in let ev := vol_err n (k + 2) e in
  exists m' v s, apply_transform m (translation t) = Ok m' /\ volume m' = Ok v /\ close_to v (total_vol (val_mesh a)) ev /\ surface m' = Ok s /\ close_to s (total_area (val_mesh a)) (area_err n (k + 2) e) /\
  (ev < total_vol (val_mesh a) -> is_oriented_outside m' = Ok true) /\ (total_vol (val_mesh a) < - ev -> is_oriented_outside m' = Ok false).
Proof.
  intros R S Hk Ht HF HL C n e ev. set (Tr := fun p => add3 p (val_pt t)).
  assert (bpow radix2 (k + 2) = 4 * bpow radix2 k) as K1 by (rewrite bpow_plus; change (bpow radix2 2) with 4; ring). pose proof (bpow_gt_0 radix2 k) as B0.
  assert (e <= bpow radix2 k) as Le by (apply bpow_le; lia).
  destruct (moved_by m a (translation t) Tr k (k + 2) e ltac:(lia) (bpow_ge_0 _ _) R S HF HL) as (m' & v & s & B).
  - intros p Hp. pose proof (translation_err k ltac:(lia) t p Ht Hp) as Cl. destruct Ht as ((_ & T1) & (_ & T2) & (_ & T3)). destruct Hp as ((_ & P1) & (_ & P2) & (_ & P3)).
    assert (forall x y, Rabs x <= bpow radix2 k -> Rabs y <= bpow radix2 k -> Rabs (x + y) <= 2 * bpow radix2 k) as A. { intros x y X Y. pose proof (Rabs_triang x y). lra. }
    pose proof (A _ _ P1 T1). pose proof (A _ _ P2 T2). pose proof (A _ _ P3 T3).
    apply close_rnear; [exact Cl| |].
    + apply (close_fits _ _ _ _ Cl). rewrite K1. unfold add3, val_pt. cbn [px py pz]. fold e. intros x [<-|[<-|[<-|[]]]]; lra.
    + unfold in_cube, Tr, add3, val_pt. cbn [px py pz]. rewrite K1. split; [|split]; lra.
  - assert (isometry Tr) as IT. { intros p q. unfold Tr, dist3, len3, dot3, sub3, add3. cbn [px py pz]. f_equal. ring. }
    cbn zeta in B. rewrite (iso_area _ _ IT) in B.
    assert (sumR (map vol_tri (map (m3 Tr) (faces (val_mesh a)))) = total_vol (val_mesh a)) as EV.
    { rewrite map_map. unfold total_vol. rewrite (sumR_ext _ (fun f => vol_tri f + 1 / 6 * edge_term (val_pt t) f)).
      - rewrite sumR_plus. rewrite (sumR_scale (1/6) (fun f => 1 / 6 * edge_term (val_pt t) f) (edge_term (val_pt t))) by reflexivity. unfold edge_term at 1. rewrite edge_sum, closed_edge_sum by exact C. ring.
      - intros [[p q] r] _. cbn [m3 vol_tri edge_term]. unfold Tr, tetra_vol, det3, dot3, cross3, add3. cbn [px py pz]. field. }
    rewrite EV in B. exists m', v, s. exact B.
Qed.
Lemma scaled64 (sx sy sz : f64) (m : Mesh f64) a k j : reach m -> shows m a -> (-400 <= k <= 400)%Z -> (-400 <= j <= 400)%Z -> (-190 <= k + j <= 190)%Z -> fits j sx -> fits j sy -> fits j sz -> Forall (fits_pt k) (averts a) -> (len (live a) <= 2 ^ 50)%Z ->
  let n := IZR (len (live a)) in let e := bpow radix2 (k + j - 54) in let ev := vol_err n (k + j + 1) e in let V := val sx * val sy * val sz * total_vol (val_mesh a) in
  exists m' v s, apply_transform m (scale sx sy sz) = Ok m' /\ volume m' = Ok v /\ close_to v V ev /\ surface m' = Ok s /\
  (val sx = val sy -> val sy = val sz -> close_to s (val sx * val sx * total_area (val_mesh a)) (area_err n (k + j + 1) e)) /\
  (ev < V -> is_oriented_outside m' = Ok true) /\ (V < - ev -> is_oriented_outside m' = Ok false).
Proof.
  intros R S Hk Hj Hkj Hx Hy Hz HF HL n e ev V. set (Tr := fun p => mkP (px p * val sx) (py p * val sy) (pz p * val sz)).
  assert (bpow radix2 (k + j + 1) = 2 * bpow radix2 (k + j)) as K1 by (rewrite (bpow_plus radix2 (k + j) 1); change (bpow radix2 1) with 2; ring). pose proof (bpow_gt_0 radix2 (k + j)) as B0.
  assert (e <= bpow radix2 (k + j)) as Le by (apply bpow_le; lia).
  destruct (moved_by m a (scale sx sy sz) Tr k (k + j + 1) e ltac:(lia) (bpow_ge_0 _ _) R S HF HL) as (m' & v & s & B).
  - intros p Hp. pose proof (scale_err k j sx sy sz p Hk Hj Hx Hy Hz Hp) as Cl. destruct Hx as [_ Hx]. destruct Hy as [_ Hy]. destruct Hz as [_ Hz]. destruct Hp as ((_ & P1) & (_ & P2) & (_ & P3)).
    assert (forall x y, Rabs x <= bpow radix2 k -> Rabs y <= bpow radix2 j -> Rabs (x * y) <= bpow radix2 (k + j)) as A.
    { intros x y X Y. rewrite Rabs_mult, bpow_plus. apply Rmult_le_compat; try apply Rabs_pos; assumption. }
    pose proof (A _ _ P1 Hx). pose proof (A _ _ P2 Hy). pose proof (A _ _ P3 Hz).
    apply close_rnear; [exact Cl| |].
    + apply (close_fits _ _ _ _ Cl). rewrite K1. cbn [px py pz]. fold e. intros x [<-|[<-|[<-|[]]]]; lra.
    + unfold in_cube, Tr, val_pt. cbn [px py pz]. rewrite K1. split; [|split]; lra.
  - cbn zeta in B. destruct B as (B1 & B2 & B3 & B4 & B5 & B6 & B7).
    assert (sumR (map vol_tri (map (m3 Tr) (faces (val_mesh a)))) = V) as EV.
    { rewrite map_map. unfold V, total_vol. apply sumR_scale. intros [[p q] r] _. cbn [m3 vol_tri]. unfold Tr, tetra_vol, det3, dot3, cross3. cbn [px py pz]. field. }
    rewrite EV in B3, B6, B7. exists m', v, s. split; [exact B1|]. split; [exact B2|]. split; [exact B3|]. split; [exact B4|]. split; [|split; assumption].
    intros Q1 Q2. assert (sumR (map area_tri (map (m3 Tr) (faces (val_mesh a)))) = val sx * val sx * total_area (val_mesh a)) as EA; [|rewrite EA in B5; exact B5].
    rewrite map_map. unfold total_area. apply sumR_scale. intros [[p q] r] _. cbn [m3 area_tri]. unfold area3, Tr. rewrite <- Q2, <- Q1. set (c := val sx).
    replace (cross3 (sub3 (mkP (px q * c) (py q * c) (pz q * c)) (mkP (px p * c) (py p * c) (pz p * c))) (sub3 (mkP (px r * c) (py r * c) (pz r * c)) (mkP (px p * c) (py p * c) (pz p * c)))) with (scal3 (c * c) (cross3 (sub3 q p) (sub3 r p))) by pring.
    rewrite len3_scal, Rabs_pos_eq by nra. field.
Qed.
Lemma moved_case : let m := corner_mesh 0 1 true in let a := corner_abs 0 1 true in
  good_trig correct_trig /\ fits 9 (f64_ofZ 90) /\ fits_pt 2 (dp 1 (-2) 3) /\ bpow radix2 (-450) <= len3 (val_pt (dp 1 (-2) 3)) /\
  reach m /\ shows m a /\ Forall (fits_pt 0) (averts a) /\ len (live a) = 4%Z /\ closed_surface (faces (val_mesh a)) /\ total_vol (val_mesh a) = 1 / 6 /\
  vol_err 4 (0 + 1) (28300 * bpow radix2 (0 - 53)) < 1 / 6.
Proof.
  intros m a. destruct degrees_case as (G & A9 & _ & W & Lw). destruct near_case as (A1 & A2 & A3 & A4 & A5 & _).
  split; [exact G|]. split; [exact A9|]. split; [exact W|]. split; [exact Lw|]. split; [exact A1|]. split; [exact A2|]. split; [exact A3|]. split; [exact A4|].
  split; [apply index_closed_surface; apply closedb_ok; vm_compute; reflexivity|]. split; [exact A5|].
  unfold vol_err. assert (bpow radix2 (3 * (0 + 1) - 53) <= bpow radix2 (-40)) by (apply bpow_le; lia). assert (bpow radix2 (0 - 53) <= bpow radix2 (-40)) by (apply bpow_le; lia).
  assert (bpow radix2 (-40) = / 1099511627776) as E by reflexivity. rewrite E in *. change (bpow radix2 (0 + 1)) with 2. lra.
Qed.
