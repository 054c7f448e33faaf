(** Concrete meshes of doubles for the error bounds. *)
From Coq Require Import ZArith List Bool Reals Lra Lia.
From Flocq Require Import Core IEEE754.Binary IEEE754.Bits IEEE754.BinarySingleNaN.
From Verif Require Import Base Num MGeometry MKernel MMesh MMeshRun MMeasure MStl MF64 SMesh SReach SGeom SMeasure SErr
  LBase LMesh LReach LGeom LMeasure LF64 LErr1 LErr4 LErr5.
Import ListNotations.
Open Scope R_scope.

(** A tetrahedron with three edges of length [s] along the axes from the point (c, c, c); faces oriented outside, or inside. *)
Definition dp (x y z : Z) : Point3 f64 := mkP (f64_ofZ x) (f64_ofZ y) (f64_ofZ z).
Definition corner_ops {M} (c s : Z) (out : bool) : list (op f64 M) :=
  [OpAddVertex (dp c c c); OpAddVertex (dp (c + s) c c); OpAddVertex (dp c (c + s) c); OpAddVertex (dp c c (c + s))] ++
  (if out then [OpAddTriangle 0 2 1; OpAddTriangle 0 1 3; OpAddTriangle 1 2 3; OpAddTriangle 2 0 3]
   else [OpAddTriangle 0 1 2; OpAddTriangle 0 3 1; OpAddTriangle 1 3 2; OpAddTriangle 2 3 0]).
Definition corner_abs (c s : Z) (out : bool) : AMesh f64 :=
  mkA [dp c c c; dp (c + s) c c; dp c (c + s) c; dp c c (c + s)]
      (if out then [((0, 2, 1), true); ((0, 1, 3), true); ((1, 2, 3), true); ((2, 0, 3), true)]
       else [((0, 1, 2), true); ((0, 3, 1), true); ((1, 3, 2), true); ((2, 3, 0), true)])%Z (-1)%Z.
Definition corner_mesh (c s : Z) (out : bool) : Mesh f64 :=
  match mrun mesh_new (corner_ops c s out) with Ok (m, _) => m | Err _ => mesh_new end.

Lemma corner_exists c s out : reach (corner_mesh c s out) /\ shows (corner_mesh c s out) (corner_abs c s out).
Proof.
  pose proof (shows_run (corner_ops c s out) (corner_ops c s out) (@mesh_new f64) a_new R_new (shows_abs mesh_new)) as H.
  specialize (H ltac:(destruct out; repeat constructor)).
  assert (srun a_new (corner_ops c s out (M := AMesh f64)) = Some (corner_abs c s out, [OutId 0; OutId 1; OutId 2; OutId 3; OutId 0; OutId 1; OutId 2; OutId 3])) as E by (destruct out; reflexivity).
  rewrite E in H. destruct H as [m [E2 [R S]]]. unfold corner_mesh. rewrite E2. split; [exact R|exact S].
Qed.

Definition exact_corner (c s : Z) (out : bool) : R := (if out then 1 else -1) * (IZR s * IZR s * IZR s / 6).
Lemma corner_volume c s out : (Z.abs c <= 2 ^ 53)%Z -> val (f64_ofZ (c + s)) = IZR (c + s) -> total_vol (val_mesh (corner_abs c s out)) = exact_corner c s out.
Proof.
  intros Hc Hs. destruct (ofZ_ok c Hc) as [Ec _].
  set (P := mkP (IZR c) (IZR c) (IZR c)). set (Q := mkP (IZR (c + s)) (IZR c) (IZR c)). set (U := mkP (IZR c) (IZR (c + s)) (IZR c)). set (W := mkP (IZR c) (IZR c) (IZR (c + s))).
  assert (val_mesh (corner_abs c s out) = mkA [P; Q; U; W] (atris (corner_abs c s out)) (-1)%Z) as ->.
  { unfold val_mesh, corner_abs. cbn [averts atris acolor map]. unfold val_pt, dp. cbn [px py pz]. rewrite Hs. unfold val. rewrite Ec. reflexivity. }
  unfold total_vol, exact_corner. destruct out.
  - change (faces _) with [(P, U, Q); (P, Q, W); (Q, U, W); (U, P, W)].
    unfold P, Q, U, W, sumR, vol_tri, tetra_vol, det3, dot3, cross3. cbn [map fold_right px py pz]. rewrite plus_IZR. field.
  - change (faces _) with [(P, Q, U); (P, W, Q); (Q, W, U); (U, W, P)].
    unfold P, Q, U, W, sumR, vol_tri, tetra_vol, det3, dot3, cross3. cbn [map fold_right px py pz]. rewrite plus_IZR. field.
Qed.

(** Inside out, far from the origin: the computed volume is 0 and the mesh is taken for oriented outside. *)
Lemma far_refuted : exists (m : Mesh f64) a, reach m /\ shows m a /\ Forall (fits_pt 53) (averts a) /\ total_vol (val_mesh a) = - (1 / 6) /\ is_oriented_outside m = Ok true.
Proof.
  exists (corner_mesh (- 2 ^ 53) 1 false), (corner_abs (- 2 ^ 53) 1 false). destruct (corner_exists (- 2 ^ 53) 1 false) as [R S]. split; [exact R|]. split; [exact S|].
  destruct (ofZ_ok (- 2 ^ 53) ltac:(vm_compute; discriminate)) as [E F].
  destruct (ofZ_ok (- 2 ^ 53 + 1) ltac:(vm_compute; discriminate)) as [E1 F1].
  assert (forall z, (- 2 ^ 53 <= z <= 0)%Z -> Rabs (IZR z) <= bpow radix2 53) as Bz.
  { intros z Hz. rewrite <- abs_IZR. change (bpow radix2 53) with (IZR (2 ^ 53)). apply IZR_le. lia. }
  assert (fits 53 (f64_ofZ (- 2 ^ 53))) as A by (split; [exact F|]; unfold val; rewrite E; apply Bz; lia).
  assert (fits 53 (f64_ofZ (- 2 ^ 53 + 1))) as B by (split; [exact F1|]; unfold val; rewrite E1; apply Bz; lia).
  assert (fits_pt 53 (dp (- 2 ^ 53) (- 2 ^ 53) (- 2 ^ 53)) /\ fits_pt 53 (dp (- 2 ^ 53 + 1) (- 2 ^ 53) (- 2 ^ 53)) /\ fits_pt 53 (dp (- 2 ^ 53) (- 2 ^ 53 + 1) (- 2 ^ 53)) /\ fits_pt 53 (dp (- 2 ^ 53) (- 2 ^ 53) (- 2 ^ 53 + 1))) as (A1 & A2 & A3 & A4)
    by (repeat split; (apply A || apply B)).
  split; [unfold corner_abs; cbn [averts]; constructor; [exact A1|constructor; [exact A2|constructor; [exact A3|constructor; [exact A4|constructor]]]]|]. split.
  - rewrite corner_volume; [unfold exact_corner; field|lia|exact E1].
  - vm_compute. reflexivity.
Qed.
(** The same solid at the origin, oriented outside: the hypotheses of the bounds. *)
Lemma near_case : reach (corner_mesh 0 1 true) /\ shows (corner_mesh 0 1 true) (corner_abs 0 1 true) /\ Forall (fits_pt 0) (averts (corner_abs 0 1 true)) /\
  len (live (corner_abs 0 1 true)) = 4%Z /\ total_vol (val_mesh (corner_abs 0 1 true)) = 1 / 6 /\ 3 * 4 * (4 + 8) * bpow radix2 (3 * 0 - 53) < 1 / 6 /\
  is_oriented_outside (corner_mesh 0 1 true) = Ok true.
Proof.
  destruct (corner_exists 0 1 true) as [R S]. split; [exact R|]. split; [exact S|].
  assert (fits 0 (f64_ofZ 0) /\ fits 0 (f64_ofZ 1)) as [A B].
  { destruct (ofZ_ok 0 ltac:(vm_compute; discriminate)) as [E F]. destruct (ofZ_ok 1 ltac:(vm_compute; discriminate)) as [E1 F1].
    split; split; try assumption; unfold val; [rewrite E|rewrite E1]; rewrite Rabs_pos_eq by lra; cbn; lra. }
  assert (fits_pt 0 (dp 0 0 0) /\ fits_pt 0 (dp (0 + 1) 0 0) /\ fits_pt 0 (dp 0 (0 + 1) 0) /\ fits_pt 0 (dp 0 0 (0 + 1))) as (A1 & A2 & A3 & A4)
    by (repeat split; (apply A || apply B)).
  split; [unfold corner_abs; cbn [averts]; constructor; [exact A1|constructor; [exact A2|constructor; [exact A3|constructor; [exact A4|constructor]]]]|].
  split; [reflexivity|]. split; [|split; [|vm_compute; reflexivity]].
  - rewrite corner_volume; [unfold exact_corner; field|lia|apply ofZ_ok; vm_compute; discriminate].
  - change (bpow radix2 (3 * 0 - 53)) with (/ 9007199254740992). lra.
Qed.

(** ** Vectors whose length is not near 1 in magnitude *)
Definition huge : f64 := f64_ofZ (2 ^ 600).
Definition tiny : f64 := nlit 1 (2 ^ 600).
Lemma strict_neq (x : f64) : Binary.is_finite_strict 53 1024 x = true -> val x <> 0.
Proof.
  destruct x as [s|s|s pl H|s m e H]; cbn; try discriminate. intros _ H0. unfold val in H0. cbn [Binary.B2R] in H0.
  apply eq_0_F2R in H0. destruct s; discriminate H0.
Qed.
Lemma x_axis_len (x : f64) : len3 (val_pt (mkP x (f64_ofZ 0) (f64_ofZ 0))) = Rabs (val x).
Proof.
  destruct (ofZ_ok 0 ltac:(vm_compute; discriminate)) as [E _]. unfold len3, dot3, val_pt. cbn [px py pz]. unfold val at 3 4 5 6. rewrite E.
  replace (val x * val x + 0 * 0 + 0 * 0) with (Rsqr (val x)) by (unfold Rsqr; ring). apply sqrt_Rsqr_abs.
Qed.
Definition axis_pt (x : f64) : Point3 f64 := mkP x (f64_ofZ 0) (f64_ofZ 0).
(** A long vector is normalised to the null vector, a short one to infinities and NaNs. *)
Lemma normalized_refuted : exists p q p' q' : Point3 f64,
  fin (px p) /\ 0 < len3 (val_pt p) /\ normalized p = Ok q /\ fin (px q) /\ fin (py q) /\ fin (pz q) /\ val_pt q = O3 /\
  fin (px p') /\ 0 < len3 (val_pt p') /\ normalized p' = Ok q' /\ ~ fin (px q') /\ ~ fin (py q') /\ ~ fin (pz q').
Proof.
  exists (axis_pt huge), (match normalized (axis_pt huge) with Ok q => q | Err _ => P0 end), (axis_pt tiny), (match normalized (axis_pt tiny) with Ok q => q | Err _ => P0 end).
  assert (val huge <> 0) as H1 by (apply strict_neq; vm_compute; reflexivity). assert (val tiny <> 0) as H2 by (apply strict_neq; vm_compute; reflexivity).
  split; [vm_compute; reflexivity|]. split; [unfold axis_pt; rewrite x_axis_len; apply Rabs_pos_lt, H1|]. split; [reflexivity|].
  split; [vm_compute; reflexivity|]. split; [vm_compute; reflexivity|]. split; [vm_compute; reflexivity|]. split; [vm_compute; reflexivity|].
  split; [vm_compute; reflexivity|]. split; [unfold axis_pt; rewrite x_axis_len; apply Rabs_pos_lt, H2|]. split; [reflexivity|].
  repeat split; vm_compute; discriminate.
Qed.

Lemma dp_fits z1 z2 z3 k : (0 <= k <= 53)%Z -> (Z.abs z1 <= 2 ^ k)%Z -> (Z.abs z2 <= 2 ^ k)%Z -> (Z.abs z3 <= 2 ^ k)%Z ->
  fits_pt k (dp z1 z2 z3) /\ val_pt (dp z1 z2 z3) = mkP (IZR z1) (IZR z2) (IZR z3).
Proof.
  intros Hk H1 H2 H3. assert (2 ^ k <= 2 ^ 53)%Z as K by (apply Z.pow_le_mono_r; lia).
  assert (forall z, (Z.abs z <= 2 ^ k)%Z -> fits k (f64_ofZ z) /\ val (f64_ofZ z) = IZR z) as A.
  { intros z Hz. destruct (ofZ_ok z ltac:(lia)) as [E F]. split; [|exact E]. split; [exact F|]. unfold val. rewrite E, <- abs_IZR.
    rewrite <- IZR_Zpower by lia. apply IZR_le. exact Hz. }
  destruct (A z1 H1) as [A1 E1], (A z2 H2) as [A2 E2], (A z3 H3) as [A3 E3]. split; [split; [exact A1|split; [exact A2|exact A3]]|].
  unfold val_pt, dp. cbn [px py pz]. rewrite E1, E2, E3. reflexivity.
Qed.
Lemma vec_case : fits_pt 2 (dp 3 (-4) 0) /\ len3 (val_pt (dp 3 (-4) 0)) = 5 /\ bpow radix2 (-450) <= len3 (val_pt (dp 3 (-4) 0)).
Proof.
  destruct (dp_fits 3 (-4) 0 2) as [F E]; [lia|vm_compute; discriminate|vm_compute; discriminate|vm_compute; discriminate|].
  assert (len3 (val_pt (dp 3 (-4) 0)) = 5) as L.
  { rewrite E. unfold len3, dot3. cbn [px py pz]. replace (3 * 3 + -4 * -4 + 0 * 0) with (5 * 5) by ring. apply sqrt_square. lra. }
  split; [exact F|]. split; [exact L|]. rewrite L. apply Rle_trans with (bpow radix2 0); [apply bpow_le; lia|cbn; lra].
Qed.
Lemma plane_case : fits_pt 0 (dp 0 0 0) /\ fits_pt 0 (dp 1 0 0) /\ fits_pt 0 (dp 0 1 0) /\
  bpow radix2 (2 * 0 - 47) <= area3 (val_pt (dp 0 0 0)) (val_pt (dp 1 0 0)) (val_pt (dp 0 1 0)).
Proof.
  destruct (dp_fits 0 0 0 0) as [F E]; [lia|vm_compute; discriminate|vm_compute; discriminate|vm_compute; discriminate|].
  destruct (dp_fits 1 0 0 0) as [F1 E1]; [lia|vm_compute; discriminate|vm_compute; discriminate|vm_compute; discriminate|].
  destruct (dp_fits 0 1 0 0) as [F2 E2]; [lia|vm_compute; discriminate|vm_compute; discriminate|vm_compute; discriminate|].
  split; [exact F|]. split; [exact F1|]. split; [exact F2|]. rewrite E, E1, E2. unfold area3, len3, dot3, cross3, sub3. cbn [px py pz].
  match goal with |- _ <= sqrt ?x / 2 => replace x with (1 * 1) by ring end. rewrite sqrt_square by lra.
  apply Rle_trans with (bpow radix2 (-1)); [apply bpow_le; lia|cbn; lra].
Qed.
