(** Rounding errors of the volume and the surface of a mesh of doubles. *)
From Coq Require Import ZArith List Bool Reals Lra Lia Psatz.
From Flocq Require Import Core Relative IEEE754.Binary IEEE754.Bits IEEE754.BinarySingleNaN.
From Verif Require Import Base Num MGeometry MKernel MMesh MMeshRun MMeasure MStl MF64 SMesh SReach SGeom SMeasure SErr
  LBase LMesh LReach LGeom LMeasure LF64 LF64Arith LErr1 LErr2 LErr3.
Import ListNotations.
Open Scope R_scope.

Lemma len3_in_cube (p : pt3) b : in_cube p b -> 0 <= b -> len3 p <= 1.75 * b.
Proof.
  intros (H1 & H2 & H3) Hb. unfold len3. apply Rsqr_incr_0_var; [|lra]. unfold Rsqr. rewrite sqrt_sqrt by (unfold dot3; nra).
  unfold dot3. pose proof (abs_prod _ _ _ _ H1 H1). pose proof (abs_prod _ _ _ _ H2 H2). pose proof (abs_prod _ _ _ _ H3 H3).
  rewrite Rabs_pos_eq in H by apply Rle_0_sqr. rewrite Rabs_pos_eq in H0 by apply Rle_0_sqr. rewrite Rabs_pos_eq in H4 by apply Rle_0_sqr.
  assert (0 <= b * b) by nra. nra.
Qed.
Lemma add_sub (p q : pt3) : add3 (sub3 p q) q = p.
Proof. destruct p, q. pring. Qed.
Lemma len3_lip (p q : pt3) : Rabs (len3 p - len3 q) <= len3 (sub3 p q).
Proof.
  apply Rabs_le. pose proof (len3_triangle (sub3 p q) q) as A. pose proof (len3_triangle (sub3 q p) p) as B.
  rewrite add_sub in A, B.
  replace (len3 (sub3 q p)) with (len3 (sub3 p q)) in B by (unfold len3; f_equal; unfold dot3, sub3; cbn [px py pz]; ring). lra.
Qed.

Lemma half_e : V64 (nlit 1 2) = / 2 /\ fin64 (nlit 1 2) = true.
Proof.
  destruct (ofZ_ok 1 ltac:(vm_compute; discriminate)) as [E1 F1]. destruct (ofZ_ok 2 ltac:(vm_compute; discriminate)) as [E2 F2].
  destruct (div_e (f64_ofZ 1) (f64_ofZ 2) 1 F1) as [E F].
  - rewrite E2. lra.
  - rewrite E1, E2. rewrite Rabs_pos_eq by lra. lra.
  - change 1 with (bpow radix2 0). apply bpow_le. lia.
  - split; [|exact F]. change (V64 (b64_div mode_NE (f64_ofZ 1) (f64_ofZ 2)) = / 2). rewrite E, E1, E2.
    replace (1 / 2) with (bpow radix2 (-1)) by (cbn; lra). rewrite round64_id by (apply fmt_bpow; lia). reflexivity.
Qed.

Section Area.
Variable k : Z.
Hypothesis Hk : (-200 <= k <= 200)%Z.
Let S : R := bpow radix2 k.
Let S_pos : 0 < S. Proof. apply bpow_gt_0. Qed.

Lemma area_ap (p q r : Point3 f64) : fits_pt k p -> fits_pt k q -> fits_pt k r ->
  exists v, tri_surface (mkTri p q r) = Ok v /\ ap v (area3 (val_pt p) (val_pt q) (val_pt r)) (65 * (uu * (S * S))) (bpow radix2 (2 * k + 3)).
Proof.
  intros Hp Hq Hr. destruct (orth_ap k Hk p q r Hp Hq Hr) as [(o1 & o2 & o3) CC]. fold S in o1, o2, o3, CC.
  assert (0 < S * S) as PS by (apply Rmult_lt_0_compat; exact S_pos).
  set (C := cross3 (sub3 (val_pt p) (val_pt q)) (sub3 (val_pt p) (val_pt r))) in *.
  assert (area3 (val_pt p) (val_pt q) (val_pt r) = len3 C / 2) as -> by (unfold area3; rewrite <- collinear_cross; reflexivity).
  unfold tri_surface. set (O := orthogonal (mkTri p q r)) in *. clearbody O C. destruct O as [x y z].
  cbn [px py pz] in *. destruct o1 as (F1 & E1 & B1), o2 as (F2 & E2 & B2), o3 as (F3 & E3 & B3).
  assert (8 * (S * S) = bpow radix2 (2 * k + 3)) as SJ by (rewrite (sc (2 * k) 3 (S * S) 8 (S2 k) eq_refl); ring).
  rewrite SJ in B1, B2, B3.
  destruct (norm_e x y z (2 * k + 3) F1 F2 F3 ltac:(lia) B1 B2 B3) as (n & En & Fn & Pn & Dn). rewrite En. cbn [bind].
  set (c := mkP (V64 x) (V64 y) (V64 z)).
  change (sqrt (V64 x * V64 x + V64 y * V64 y + V64 z * V64 z)) with (len3 c) in Dn.
  assert (Rabs (len3 c - len3 C) <= 28 * (uu * (S * S))) as L1.
  { eapply Rle_trans; [apply len3_lip|]. assert (0 < uu * (S * S)) by (apply Rmult_lt_0_compat; [apply uu_pos|lra]).
    eapply Rle_trans; [apply (len3_in_cube _ (16 * (uu * (S * S))))|]; [|lra|lra]. split; [exact E1|]. split; [exact E2|exact E3]. }
  assert (len3 C <= 14 * (S * S)) as L2 by (eapply Rle_trans; [apply (len3_in_cube _ _ CC); lra|lra]).
  pose proof (sqrt_pos (dot3 C C)) as PC. fold (len3 C) in PC.
  assert (bpow radix2 (-535) <= / 4 * (uu * (S * S))) as T.
  { unfold S; rewrite <- (S2 k). unfold uu. change (/ 4) with (bpow radix2 (-2)). rewrite <- !bpow_plus. apply bpow_le. lia. }
  assert (eta <= / 4 * (uu * (S * S))) as T'.
  { unfold S; rewrite <- (S2 k). unfold uu, eta. change (/ 4) with (bpow radix2 (-2)). rewrite <- !bpow_plus. apply bpow_le. lia. }
  destruct half_e as [VH FH]. pose proof (bpow_gt_0 radix2 (-535)) as TP.
  apply Rabs_le_inv in Dn, L1. set (lc := len3 c) in *. set (lC := len3 C) in *. rewrite uu_val in *. set (W := S * S) in *.
  assert (V64 n * / 2 <= 8 * W) as NB by lra.
  assert (Rabs (V64 n * V64 (nlit 1 2)) <= bpow radix2 (2 * k + 3)) as NB' by (rewrite VH, Rabs_pos_eq by lra; rewrite <- SJ; exact NB).
  destruct (mul_e n (nlit 1 2) _ Fn FH NB' (le1000 (2 * k + 3) ltac:(lia))) as [E F]. eexists. split; [reflexivity|].
  split; [exact F|]. split.
  - pose proof (rounded_rel (nmul n (nlit 1 2)) _ _ E NB') as R. rewrite VH in R. rewrite <- SJ, uu_val in R. apply Rabs_le_inv in R. apply Rabs_le.
    set (w := V64 (nmul n (nlit 1 2))) in *. clearbody w lc lC W. lra.
  - apply (rounded_pow _ _ (2 * k + 3) E); [lia|exact NB'].
Qed.
End Area.

Lemma fmt_int n j : (0 <= n <= 2 ^ 50)%Z -> (-1074 <= j)%Z -> generic_format radix2 (FLT_exp (-1074) 53) (IZR n * bpow radix2 j).
Proof.
  intros Hn Hj. apply generic_format_FLT. apply (FLT_spec _ _ _ _ (Float radix2 n j)).
  - reflexivity.
  - cbn [Fnum]. rewrite Z.abs_eq by lia. apply Z.le_lt_trans with (2 ^ 50)%Z; [lia|reflexivity].
  - exact Hj.
Qed.

(** The sum of one double per linked triangle. *)
Lemma sum_f64 (m : Mesh f64) f (g : pt3 * pt3 * pt3 -> R) j E : wf m -> (-1000 <= j <= 900)%Z -> (len (live (abs m)) <= 2 ^ 50)%Z ->
  (forall p q r, In p (kverts (mkern m)) -> In q (kverts (mkern m)) -> In r (kverts (mkern m)) ->
     exists v, f (mkTri p q r) = Ok v /\ ap v (g (val_pt p, val_pt q, val_pt r)) E (bpow radix2 j)) ->
  let n := IZR (len (live (abs m))) in
  exists s, sum_triangles m f = Ok s /\ fin64 s = true /\ Rabs (V64 s) <= n * bpow radix2 j /\
    Rabs (V64 s - sumR (map g (faces (val_mesh (abs m))))) <= n * (E + eta) + uu * bpow radix2 j * (n * (n + 1) / 2).
Proof.
  intros W Hj Hn HF n. set (B := bpow radix2 j).
  destruct (sum_rule m f (fun l s => fin64 s = true /\ Rabs (V64 s) <= IZR (len l) * B /\
    Rabs (V64 s - sumR (map g (map (corners (val_mesh (abs m))) l))) <= IZR (len l) * (E + eta) + uu * B * (IZR (len l) * (IZR (len l) + 1) / 2)) W) as [s [Es H]].
  - destruct (ofZ_ok 0 ltac:(vm_compute; discriminate)) as [E0 F0]. change n0 with (f64_ofZ 0). split; [exact F0|]. rewrite E0. cbn. rewrite Rminus_0_r, Rabs_R0. split; lra.
  - intros l s x y z p q r (Fs & Bs & Ds) Vx Vy Vz HL.
    assert (IN : forall i w, vget (kverts (mkern m)) i = Ok w -> In w (kverts (mkern m))) by (intros i w V; apply vget_Ok in V; destruct V as [_ V]; eapply nth_error_In; exact V).
    destruct (HF p q r (IN _ _ Vx) (IN _ _ Vy) (IN _ _ Vz)) as (v & Ev & Fv & Dv & Bv). exists v. split; [exact Ev|].
    assert (corners (val_mesh (abs m)) (x, y, z) = (val_pt p, val_pt q, val_pt r)) as CE.
    { assert (forall i w, vget (kverts (mkern m)) i = Ok w -> pt (val_mesh (abs m)) i O3 = val_pt w) as PT.
      { intros i w V. unfold pt. cbn [averts val_mesh abs]. apply vget_Ok in V. destruct V as [_ V]. apply nth_error_nth. rewrite nth_error_map, V. reflexivity. }
      unfold corners. rewrite (PT _ _ Vx), (PT _ _ Vy), (PT _ _ Vz). reflexivity. }
    assert (len (l ++ [(x, y, z)]) = len l + 1)%Z as LE by (unfold len; rewrite app_length; cbn [length]; lia).
    assert (0 <= len l < 2 ^ 50)%Z as LR by (unfold len in *; lia).
    rewrite !map_app. cbn [map]. rewrite CE, sumR_app. set (G := g (val_pt p, val_pt q, val_pt r)) in *. set (A := sumR (map g (map (corners (val_mesh (abs m))) l))) in *.
    rewrite LE, plus_IZR. set (c := IZR (len l)) in *. cbn [sumR fold_right]. fold B in Bv.
    assert (Rabs (V64 s + V64 v) <= IZR (len l + 1) * B) as SB by (rewrite plus_IZR; fold c; eapply Rle_trans; [apply Rabs_triang|lra]).
    assert (IZR (len l + 1) * B <= bpow radix2 1000) as SB2.
    { apply Rle_trans with (bpow radix2 50 * bpow radix2 900); [|rewrite <- bpow_plus; apply bpow_le; lia].
      apply Rmult_le_compat; [apply IZR_le; lia|apply bpow_ge_0|change (bpow radix2 50) with (IZR (2 ^ 50)); apply IZR_le; lia|apply bpow_le; lia]. }
    destruct (add_e s v _ Fs Fv SB SB2) as [Ea Fa]. change (nadd s v) with (b64_plus mode_NE s v). split; [exact Fa|]. split.
    + rewrite Ea. replace (c + 1) with (IZR (len l + 1)) by (rewrite plus_IZR; reflexivity). apply round64_bound; [apply fmt_int; lia|exact SB].
    + pose proof (rounded_rel _ _ _ Ea SB) as R. rewrite plus_IZR in R. fold c in R.
      apply Rabs_le_inv in R, Ds, Dv. apply Rabs_le. set (w := V64 (b64_plus mode_NE s v)) in *.
      assert (uu * B * ((c + 1) * (c + 1 + 1) / 2) = uu * B * (c * (c + 1) / 2) + uu * ((c + 1) * B)) as -> by field.
      set (D := uu * B * (c * (c + 1) / 2)) in *. set (K := uu * ((c + 1) * B)) in *. set (Ce := c * (E + eta)) in *.
      replace ((c + 1) * (E + eta)) with (Ce + E + eta) by (unfold Ce; ring). clearbody w D K Ce A G. lra.
  - exists s. split; [exact Es|]. destruct H as (F & Bd & D). split; [exact F|]. split; [exact Bd|]. exact D.
Qed.

Section Mesh.
Variable k : Z.
Hypothesis Hk : (-200 <= k <= 200)%Z.
Variable m : Mesh f64.
Hypothesis W : wf m.
Hypothesis HV : Forall (fits_pt k) (averts (abs m)).
Hypothesis HN : (len (live (abs m)) <= 2 ^ 50)%Z.
Let n : R := IZR (len (live (abs m))).
Let n_nonneg : 0 <= n. Proof. apply IZR_le. unfold len. lia. Qed.
Let inv p : In p (kverts (mkern m)) -> fits_pt k p. Proof. rewrite Forall_forall in HV. apply HV. Qed.

Lemma surface_err : exists v, surface m = Ok v /\ close_to v (total_area (val_mesh (abs m))) (n * (4 * n + 70) * bpow radix2 (2 * k - 53)).
Proof.
  destruct (sum_f64 m tri_surface area_tri (2 * k + 3) (65 * (uu * (bpow radix2 k * bpow radix2 k))) W ltac:(lia) HN) as (s & Es & Fs & _ & Ds).
  { intros p q r Hp Hq Hr. exact (area_ap k Hk p q r (inv p Hp) (inv q Hq) (inv r Hr)). }
  exists s. split; [exact Es|]. split; [exact Fs|]. eapply Rle_trans; [exact Ds|]. fold n.
  rewrite (sc (2 * k) 3 _ 8 (S2 k) eq_refl). replace (bpow radix2 (2 * k - 53)) with (uu * (bpow radix2 k * bpow radix2 k)) by (rewrite <- (S2 k); unfold uu; rewrite <- bpow_plus; f_equal; lia).
  assert (eta <= uu * (bpow radix2 k * bpow radix2 k)) as T.
  { rewrite <- (S2 k). unfold uu, eta. rewrite <- !bpow_plus. apply bpow_le. lia. }
  set (X := bpow radix2 k * bpow radix2 k) in *. assert (n * eta <= n * (uu * X)) by (apply Rmult_le_compat_l; assumption).
  replace (n * (65 * (uu * X) + eta) + uu * (8 * X) * (n * (n + 1) / 2)) with (n * (4 * n + 69) * (uu * X) + n * eta) by field. lra.
Qed.

Lemma volume_err : exists v, volume m = Ok v /\ close_to v (total_vol (val_mesh (abs m))) (3 * n * (n + 8) * bpow radix2 (3 * k - 53)).
Proof.
  destruct (sum_f64 m (fun t => Ok (dot (t1 t) (orthogonal t))) (fun t => 6 * vol_tri t) (3 * k + 5) (84 * (uu * (bpow radix2 k * (bpow radix2 k * bpow radix2 k)))) W ltac:(lia) HN) as (s & Es & Fs & Bs & Ds).
  { intros p q r Hp Hq Hr. eexists. split; [reflexivity|]. eapply ap_weak; [apply (dot_ap k Hk p q r (inv p Hp) (inv q Hq) (inv r Hr))|lra|].
    rewrite (sc (3 * k) 5 _ 32 (S3 k) eq_refl). lra. }
  unfold volume. rewrite Es. cbn [bind].
  rewrite (sumR_scale 6 (fun f => 6 * vol_tri f) vol_tri) in Ds by (intros; ring). fold (total_vol (val_mesh (abs m))) in Ds.
  set (V := total_vol (val_mesh (abs m))) in *. fold n in Bs, Ds.
  rewrite (sc (3 * k) 5 _ 32 (S3 k) eq_refl) in Bs, Ds.
  replace (bpow radix2 (3 * k - 53)) with (uu * (bpow radix2 k * (bpow radix2 k * bpow radix2 k))) by (rewrite <- (S3 k); unfold uu; rewrite <- bpow_plus; f_equal; lia).
  assert (eta <= uu * (bpow radix2 k * (bpow radix2 k * bpow radix2 k))) as T.
  { rewrite <- (S3 k). unfold uu, eta. rewrite <- !bpow_plus. apply bpow_le. lia. }
  assert (n * (32 * (bpow radix2 k * (bpow radix2 k * bpow radix2 k))) <= bpow radix2 1000) as NB.
  { apply Rle_trans with (bpow radix2 50 * bpow radix2 900); [|rewrite <- bpow_plus; apply bpow_le; lia].
    apply Rmult_le_compat; [exact n_nonneg| |change (bpow radix2 50) with (IZR (2 ^ 50)); apply IZR_le; exact HN|].
    - rewrite <- (S3 k). apply Rmult_le_pos; [lra|apply bpow_ge_0].
    - rewrite <- (S3 k). change 32 with (bpow radix2 5). rewrite <- bpow_plus. apply bpow_le. lia. }
  assert (0 < bpow radix2 k * (bpow radix2 k * bpow radix2 k)) as XP by (rewrite <- (S3 k); apply bpow_gt_0).
  set (X := bpow radix2 k * (bpow radix2 k * bpow radix2 k)) in *.
  destruct (ofZ_ok 6 ltac:(vm_compute; discriminate)) as [E6 F6].
  assert (Rabs (V64 s / V64 (f64_ofZ 6)) <= n * (32 * X) / 6) as QB.
  { rewrite E6. unfold Rdiv. rewrite Rabs_mult, (Rabs_pos_eq (/ 6)) by lra. apply Rmult_le_compat_r; [lra|exact Bs]. }
  assert (0 <= n * X) as NX by (apply Rmult_le_pos; lra).
  destruct (div_e s (f64_ofZ 6) (n * (32 * X) / 6) Fs) as [Ed Fd]; [rewrite E6; lra|exact QB|lra|].
  eexists. split; [reflexivity|]. split; [exact Fd|]. change (Rabs (V64 (b64_div mode_NE s (f64_ofZ 6)) - V) <= 3 * n * (n + 8) * (uu * X)).
  assert (len (live (abs m)) = 0 \/ 1 <= len (live (abs m)))%Z as [Z0|Z1] by (unfold len; lia).
  - unfold n in *. rewrite Z0 in *. assert (V64 s = 0) as S0.
    { apply Rabs_eq_R0. pose proof (Rabs_pos (V64 s)). lra. }
    rewrite Ed, E6, S0. replace (0 / 6) with 0 by field. rewrite round64_0. rewrite S0 in Ds.
    replace (0 * (84 * (uu * X) + eta) + uu * (32 * X) * (0 * (0 + 1) / 2)) with 0 in Ds by field.
    apply Rabs_le_inv in Ds. apply Rabs_le. lra.
  - assert (1 <= n) as N1 by (apply IZR_le; exact Z1).
    pose proof (rounded_rel _ _ _ Ed QB) as R. rewrite E6 in R. apply Rabs_le_inv in R, Ds. apply Rabs_le.
    set (w := V64 (b64_div mode_NE s (f64_ofZ 6))) in *.
    assert (0 < uu * X) as UX by (apply Rmult_lt_0_compat; [apply uu_pos|exact XP]).
    replace (n * (84 * (uu * X) + eta) + uu * (32 * X) * (n * (n + 1) / 2)) with ((n * (16 * n + 100)) * (uu * X) + n * eta) in Ds by field.
    assert (n * eta <= n * (uu * X)) by (apply Rmult_le_compat_l; lra).
    replace (uu * (n * (32 * X) / 6)) with (n * (32 / 6) * (uu * X)) in R by field.
    set (Y := uu * X) in *. assert (Y <= n * Y) by nra. assert (n * Y <= n * n * Y) by (rewrite Rmult_assoc; apply Rmult_le_compat_l; nra).
    replace (3 * n * (n + 8) * Y) with (3 * (n * n * Y) + 24 * (n * Y)) by ring.
    replace (n * (16 * n + 100) * Y) with (16 * (n * n * Y) + 100 * (n * Y)) in Ds by ring.
    replace (n * (32 / 6) * Y) with (32 / 6 * (n * Y)) in R by ring.
    clearbody w. set (A := n * n * Y) in *. set (B := n * Y) in *. clearbody A B. lra.
Qed.
End Mesh.

Lemma reach_surface_err m a k : reach m -> shows m a -> (-200 <= k <= 200)%Z -> Forall (fits_pt k) (averts a) -> (len (live a) <= 2 ^ 50)%Z ->
  let n := IZR (len (live a)) in
  exists v, surface m = Ok v /\ close_to v (total_area (val_mesh a)) (n * (4 * n + 70) * bpow radix2 (2 * k - 53)).
Proof. intros R S. rewrite (shows_unique m a (abs m) S (shows_abs m)). intros. apply surface_err; auto using reach_wf. Qed.
Lemma reach_volume_err m a k : reach m -> shows m a -> (-200 <= k <= 200)%Z -> Forall (fits_pt k) (averts a) -> (len (live a) <= 2 ^ 50)%Z ->
  let n := IZR (len (live a)) in
  exists v, volume m = Ok v /\ close_to v (total_vol (val_mesh a)) (3 * n * (n + 8) * bpow radix2 (3 * k - 53)).
Proof. intros R S. rewrite (shows_unique m a (abs m) S (shows_abs m)). intros. apply volume_err; auto using reach_wf. Qed.

Lemma reach_oriented_err m a k : reach m -> shows m a -> (-200 <= k <= 200)%Z -> Forall (fits_pt k) (averts a) -> (len (live a) <= 2 ^ 50)%Z ->
  let n := IZR (len (live a)) in let e := 3 * n * (n + 8) * bpow radix2 (3 * k - 53) in
  (e < total_vol (val_mesh a) -> is_oriented_outside m = Ok true) /\ (total_vol (val_mesh a) < - e -> is_oriented_outside m = Ok false).
Proof.
  intros R S Hk HV HN. destruct (reach_volume_err m a k R S Hk HV HN) as (v & Ev & Fv & Dv). cbn zeta in *.
  set (e := 3 * IZR (len (live a)) * (IZR (len (live a)) + 8) * bpow radix2 (3 * k - 53)) in *. set (V := total_vol (val_mesh a)) in *. clearbody e V.
  unfold is_oriented_outside. rewrite Ev. cbn [bind]. apply Rabs_le_inv in Dv. unfold val in Dv.
  destruct (ofZ_ok 0 ltac:(vm_compute; discriminate)) as [E0 F0].
  assert (nleb (nofZ 0) v = Rle_bool 0 (V64 v)) as L.
  { change (f64_leb (f64_ofZ 0) v = Rle_bool 0 (V64 v)). unfold f64_leb, b64_compare. rewrite Binary.Bcompare_correct by assumption. rewrite E0.
    unfold Rle_bool. destruct (Rcompare 0 (V64 v)); reflexivity. }
  rewrite L. split; intros H; f_equal; [apply Rle_bool_true|apply Rle_bool_false]; lra.
Qed.
