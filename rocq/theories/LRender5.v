(** Shading, camera, faces and solids. *)
From Coq Require Import ZArith List Bool Reals Lia Lra Permutation.
From Flocq Require Import Core IEEE754.Binary IEEE754.Bits IEEE754.BinarySingleNaN.
From Verif Require Import Base Num MGeometry MKernel MMesh MTransform MStl MF64 MRender SMesh SReach SGeom SMeasure SRender LBase LMesh LReach LGeom LTransform LF64 LF64Ord.
Import ListNotations.
Open Scope Z_scope.

(** ** Truncation of reals *)
Lemma Int_part_char x z : (IZR z <= x < IZR z + 1)%R -> Int_part x = z.
Proof. intros H. pose proof (base_Int_part x) as [A B]. apply Z.le_antisymm; apply Z.lt_succ_r; apply lt_IZR; unfold Z.succ; rewrite plus_IZR; lra. Qed.
Lemma trunc_R x z : 0 <= z <= int_max -> (IZR z <= x < IZR z + 1)%R -> ntrunc x = Ok z.
Proof.
  intros Hz H. cbn. unfold Rtrunc. assert (0 <= IZR z)%R by (apply IZR_le; lia). destruct (Rlt_dec x 0); [lra|]. rewrite (Int_part_char x z H).
  replace (int_min <=? z) with true by (symmetry; apply Z.leb_le; unfold int_min; lia). replace (z <=? int_max) with true by (symmetry; apply Z.leb_le; lia). reflexivity.
Qed.
Lemma trunc_R_pos x : (0 <= x)%R -> ntrunc x = if Int_part x <=? int_max then Ok (Int_part x) else Err FBadConv.
Proof.
  intros H. cbn. unfold Rtrunc. destruct (Rlt_dec x 0); [lra|]. pose proof (base_Int_part x) as [A B]. assert (0 <= Int_part x) by (apply Z.lt_succ_r; apply lt_IZR; unfold Z.succ; rewrite plus_IZR; lra).
  replace (int_min <=? Int_part x) with true by (symmetry; apply Z.leb_le; unfold int_min; lia). reflexivity.
Qed.
Lemma div_R x y : y <> 0%R -> ndiv x y = Ok (x / y)%R.
Proof. intros H. cbn. destruct (Req_EM_T y 0); [contradiction|reflexivity]. Qed.

(** ** Shading *)
Lemma channel_byte c k : 0 <= k -> channel c k = byte c k.
Proof. intros H. unfold channel, byte. rewrite Z.shiftr_div_pow2 by exact H. change 255 with (Z.ones 8). rewrite Z.land_ones by lia. reflexivity. Qed.
Lemma byte_range c k : 0 <= byte c k < 256. Proof. apply Z.mod_pos_bound. lia. Qed.
Lemma light_apply_R l x y z n : light_apply l x y z n = (x * light_on l 16 n, y * light_on l 8 n, z * light_on l 0 n)%R.
Proof.
  destruct l as [r g b|r g b dir]; cbn [light_apply light_on]; [reflexivity|]. change (dot n dir) with (dot3 n dir).
  assert ((if nltb (dot3 n dir) n0 then n0 else dot3 n dir) = Rmax 0 (dot3 n dir)) as E.
  { cbn. unfold Rmax. destruct (Rle_dec 0 (dot3 n dir)) as [L|L]; [rewrite (proj2 (Rltb_ge _ _)) by lra; reflexivity|]. rewrite (proj2 (Rltb_lt _ _)) by lra. reflexivity. }
  cbv zeta. rewrite E. reflexivity.
Qed.
Lemma shade_snoc ls l c n k : shade (ls ++ [l]) c n k = (shade ls c n k + IZR (byte c k) / 256 * light_on l k n)%R.
Proof. induction ls as [|a ls IH]; cbn; [lra|]. fold (shade (ls ++ [l]) c n k). rewrite IH. unfold shade. lra. Qed.
Lemma color_R ls c n : compute_color ls c n =
  do ir <- level (shade ls c n 16); do ig <- level (shade ls c n 8); do ib <- level (shade ls c n 0); Ok (rgb ir ig ib).
Proof.
  unfold compute_color. rewrite !channel_byte by lia. assert (@nofZ R RNum 256 <> 0%R) as NZ by (cbn; lra). rewrite !div_R by exact NZ. cbn [bind].
  set (red := (nofZ (byte c 16) / nofZ 256)%R). set (green := (nofZ (byte c 8) / nofZ 256)%R). set (blue := (nofZ (byte c 0) / nofZ 256)%R).
  destruct (for_inv (fun i (s : R * R * R) => s = (shade (firstn (Z.to_nat i) ls) c n 16, shade (firstn (Z.to_nat i) ls) c n 8, shade (firstn (Z.to_nat i) ls) c n 0)) 0 (vsize ls)
    (fun i tot => do l <- vget ls i; let '(r, g, b) := light_apply l red green blue n in let '(rt, gt, bt) := tot in Ok (nadd rt r, nadd gt g, nadd bt b)) (n0, n0, n0)) as [s [E H]].
  - unfold vsize. lia.
  - reflexivity.
  - intros i s Hi ->. destruct (vget_in_range ls i Hi) as [l El]. rewrite El. cbn [bind]. rewrite light_apply_R. eexists. split; [reflexivity|].
    replace (Z.to_nat (i + 1)) with (S (Z.to_nat i)) by lia. apply vget_Ok in El. destruct El as [_ El].
    assert (firstn (S (Z.to_nat i)) ls = firstn (Z.to_nat i) ls ++ [l]) as ->.
    { clear - El. revert El. generalize (Z.to_nat i) as m. induction ls as [|a ls IH]; intros [|m] E; cbn in E; try discriminate; [injection E as ->; reflexivity|]. cbn [firstn app]. f_equal. apply IH. exact E. }
    rewrite !shade_snoc. reflexivity.
  - rewrite E. cbn [bind]. rewrite H. replace (Z.to_nat (vsize ls)) with (length ls) by (unfold vsize; lia). rewrite firstn_all.
    destruct (level (shade ls c n 16)); [|reflexivity]. destruct (level (shade ls c n 8)); [|reflexivity]. destruct (level (shade ls c n 0)); [|reflexivity]. cbn [bind]. unfold rgb. rewrite !Z.shiftl_mul_pow2 by lia. f_equal. lia.
Qed.
Lemma light_on_pos l k n : bright l -> (0 <= light_on l k n)%R.
Proof. destruct l as [r g b|r g b dir]; cbn [bright light_on]; intros (A & B & C); cbv zeta; [|apply Rmult_le_pos; [|apply Rmax_l]]; destruct (k =? 16); try destruct (k =? 8); assumption. Qed.
Lemma shade_pos ls c n k : Forall bright ls -> (0 <= shade ls c n k)%R.
Proof.
  intros H. induction H as [|l ls B H IH]; cbn; [lra|]. fold (shade ls c n k). pose proof (light_on_pos l k n B). pose proof (byte_range c k) as [B1 _]. apply IZR_le in B1.
  assert (0 <= IZR (byte c k) / 256 * light_on l k n)%R by (apply Rmult_le_pos; lra). lra.
Qed.
Lemma shown_range d : (0 <= d)%R -> 0 <= shown d <= 255.
Proof.
  intros H. unfold shown. pose proof (base_Int_part (256 * d + 1 / 2)) as [A B]. assert (0 <= Int_part (256 * d + 1 / 2)) by (apply Z.lt_succ_r; apply lt_IZR; unfold Z.succ; rewrite plus_IZR; lra). lia.
Qed.
Lemma level_R d : (0 <= d)%R -> level d = if Int_part (256 * d + 1 / 2) <=? int_max then Ok (shown d) else Err FBadConv.
Proof.
  intros H. unfold level. assert ((nadd (nmul d (nofZ 256)) (nlit 1 2)) = (256 * d + 1 / 2)%R) as -> by (cbn; lra). rewrite trunc_R_pos by lra. destruct (_ <=? int_max); [|reflexivity]. cbn [bind]. unfold shown.
  destruct (Z.ltb_spec 255 (Int_part (256 * d + 1 / 2))); f_equal; lia.
Qed.
Lemma int_part_fits d : (256 * d + 1 / 2 < 2147483648)%R <-> (Int_part (256 * d + 1 / 2) <=? int_max) = true.
Proof.
  rewrite Z.leb_le. pose proof (base_Int_part (256 * d + 1 / 2)) as [A B]. change int_max with (2147483648 - 1). split; intros H.
  - apply Z.lt_succ_r. apply lt_IZR. unfold Z.succ. replace (2147483648 - 1 + 1) with 2147483648 by lia. lra.
  - apply IZR_le in H. rewrite minus_IZR in H. lra.
Qed.
Lemma color_ok ls c n : Forall bright ls -> (forall k, k = 16 \/ k = 8 \/ k = 0 -> (256 * shade ls c n k + 1 / 2 < 2147483648)%R) ->
  compute_color ls c n = Ok (rgb (shown (shade ls c n 16)) (shown (shade ls c n 8)) (shown (shade ls c n 0))) /\
  (forall k, k = 16 \/ k = 8 \/ k = 0 -> 0 <= shown (shade ls c n k) <= 255).
Proof.
  intros B H. split; [|intros k _; apply shown_range, shade_pos, B]. rewrite color_R. rewrite !level_R by (apply shade_pos; exact B). rewrite !(proj1 (int_part_fits _)) by (apply H; auto). reflexivity.
Qed.
Lemma color_overflow ls c n : Forall bright ls -> (2147483648 <= 256 * shade ls c n 16 + 1 / 2)%R -> compute_color ls c n = Err FBadConv.
Proof.
  intros B H. rewrite color_R. rewrite level_R by (apply shade_pos; exact B). destruct (_ <=? int_max) eqn:E; [|reflexivity]. apply int_part_fits in E. lra.
Qed.
Lemma shade_perm ls ls' c n k : Permutation ls ls' -> shade ls c n k = shade ls' c n k.
Proof. intros P. induction P; cbn; [reflexivity|f_equal; exact IHP|lra|congruence]. Qed.
Lemma color_perm (ls ls' : list (Light R)) c n : Permutation ls ls' -> compute_color ls c n = compute_color ls' c n.
Proof. intros P. rewrite !color_R. rewrite (shade_perm ls ls' c n 16 P), (shade_perm ls ls' c n 8 P), (shade_perm ls ls' c n 0 P). reflexivity. Qed.
Lemma color_dark c n : compute_color (@nil (Light R)) c n = Ok 0.
Proof.
  rewrite color_R. assert (level 0%R = Ok 0) as L. { rewrite level_R by lra. unfold shown. rewrite (Int_part_char _ 0) by lra. reflexivity. }
  cbn [shade fold_right]. rewrite L. reflexivity.
Qed.
Lemma ambient_bright c f l : (0 <= f)%R -> light_ambient c f = Ok l -> bright l /\ forall k n, k = 16 \/ k = 8 \/ k = 0 -> light_on l k n = (f * (IZR (byte c k) / 256))%R.
Proof.
  intros F. unfold light_ambient, factor. assert (@nofZ R RNum 256 <> 0%R) as NZ by (cbn; lra). rewrite !div_R by exact NZ. cbn [bind]. intros [= <-]. rewrite !channel_byte by lia.
  cbn [nmul nofZ RNum]. pose proof (byte_range c 16) as [A _]. pose proof (byte_range c 8) as [B _]. pose proof (byte_range c 0) as [C _]. apply IZR_le in A, B, C.
  assert (forall z, (0 <= z -> 0 <= f * z / 256)%R) as K by (intros z Hz; unfold Rdiv; apply Rmult_le_pos; [apply Rmult_le_pos; assumption|lra]).
  split; [cbn; auto|]. intros k n [-> | [-> | ->] ]; cbn; lra.
Qed.
Lemma diffuse_bright c f d l : (0 <= f)%R -> light_diffuse c f d = Ok l -> bright l /\ forall k n, k = 16 \/ k = 8 \/ k = 0 -> light_on l k n = (f * (IZR (byte c k) / 256) * Rmax 0 (dot3 n d))%R.
Proof.
  intros F. unfold light_diffuse, factor. assert (@nofZ R RNum 256 <> 0%R) as NZ by (cbn; lra). rewrite !div_R by exact NZ. cbn [bind]. intros [= <-]. rewrite !channel_byte by lia.
  cbn [nmul nofZ RNum]. pose proof (byte_range c 16) as [A _]. pose proof (byte_range c 8) as [B _]. pose proof (byte_range c 0) as [C _]. apply IZR_le in A, B, C.
  assert (forall z, (0 <= z -> 0 <= f * z / 256)%R) as K by (intros z Hz; unfold Rdiv; apply Rmult_le_pos; [apply Rmult_le_pos; assumption|lra]).
  split; [cbn; auto|]. intros k n [-> | [-> | ->] ]; cbn; lra.
Qed.

(** ** Camera *)
Lemma project_R (c : Camera R) p : cam_depth c p <> 0%R -> project c p =
  do sx <- ntrunc (px (local_ref c p) * cam_zoom c / cam_depth c p + IZR (cam_cx c) + 1 / 2)%R;
  do sy <- ntrunc (py (local_ref c p) * cam_zoom c / cam_depth c p + IZR (cam_cy c) + 1 / 2)%R; Ok (sx, sy, 1 / cam_depth c p)%R.
Proof.
  intros H. unfold project. cbv zeta. fold (cam_depth c p). rewrite !div_R by exact H. cbn [bind]. replace (neqb (cam_depth c p) n0) with false by (symmetry; apply Reqb_neq; exact H). cbn [negb].
  change (nlit 1 2) with (1 / 2)%R. reflexivity.
Qed.
Lemma project_behind (c : Camera R) p : cam_depth c p = 0%R -> project c p = Err FDivZero.
Proof. intros H. unfold project. cbv zeta. fold (cam_depth c p). rewrite H. cbn. destruct (Req_EM_T 0 0); [reflexivity|contradiction]. Qed.
Lemma project_w (c : Camera R) p sx sy w : project c p = Ok (sx, sy, w) -> cam_depth c p <> 0%R /\ w = (1 / cam_depth c p)%R.
Proof.
  intros E. destruct (Req_dec (cam_depth c p) 0) as [Z|Z]; [rewrite project_behind in E by exact Z; discriminate|]. split; [exact Z|]. rewrite project_R in E by exact Z.
  destruct (ntrunc _); [|discriminate]. cbn [bind] in E. destruct (ntrunc _); [|discriminate]. cbn [bind] in E. congruence.
Qed.
Lemma project_sign (c : Camera R) p sx sy w : project c p = Ok (sx, sy, w) -> (w = 1 / cam_depth c p /\ (0 < w <-> 0 < cam_depth c p))%R.
Proof.
  intros E. destruct (project_w c p sx sy w E) as [Z ->]. split; [reflexivity|]. unfold Rdiv. rewrite Rmult_1_l. split; intros H; [|apply Rinv_0_lt_compat; exact H].
  destruct (Rlt_dec 0 (cam_depth c p)); [assumption|]. assert (cam_depth c p < 0)%R as K by lra. apply Rinv_lt_0_compat in K. lra.
Qed.
Lemma project_order (c : Camera R) p q x y w x' y' w' : project c p = Ok (x, y, w) -> project c q = Ok (x', y', w') -> (0 < cam_depth c p)%R -> (0 < cam_depth c q)%R ->
  ((cam_depth c p < cam_depth c q <-> w' < w) /\ (cam_depth c p = cam_depth c q <-> w = w'))%R.
Proof.
  intros E E' P Q. destruct (project_w _ _ _ _ _ E) as [_ ->]. destruct (project_w _ _ _ _ _ E') as [_ ->]. set (a := cam_depth c p) in *. set (b := cam_depth c q) in *. unfold Rdiv. rewrite !Rmult_1_l.
  split; split; intros H.
  - apply Rinv_lt_contravar; [apply Rmult_lt_0_compat; assumption|exact H].
  - rewrite <- (Rinv_inv a), <- (Rinv_inv b). apply Rinv_lt_contravar; [apply Rmult_lt_0_compat; apply Rinv_0_lt_compat; assumption|exact H].
  - rewrite H. reflexivity.
  - rewrite <- (Rinv_inv a), <- (Rinv_inv b). rewrite H. reflexivity.
Qed.
Lemma set_camera_R r ox oy oz ahead yaw pitch roll zoom : exists e, euler_set yaw pitch roll = Ok e /\
  rd_set_camera r ox oy oz ahead yaw pitch roll zoom = Ok (mkRd (mkCam ox oy oz ahead zoom (Z.quot (rd_X r) 2) (Z.quot (rd_Y r) 2) e) (rd_lights r) (rd_pix r) (rd_w r) (rd_X r) (rd_Y r) (rd_bg r)).
Proof. unfold rd_set_camera, cam_set_angles, euler_set. rewrite deg_to_rad_R. cbn [bind]. eexists. split; reflexivity. Qed.
Lemma sight_local yaw pitch roll e c o t : euler_set yaw pitch roll = Ok e -> cam_rot c = e -> mkP (cam_x c) (cam_y c) (cam_z c) = o ->
  local_ref c (along o (sight yaw pitch) t) = mkP 0%R 0%R (t + cam_ahead c)%R.
Proof.
  unfold euler_set. rewrite deg_to_rad_R. cbn [bind]. intros [= <-] E <-. unfold local_ref, euler_apply, along, sight. rewrite E. change degree with kdeg. cbn.
  set (a := (yaw * kdeg)%R). set (b := (pitch * kdeg)%R). pose proof (sin2_cos2 a) as A. pose proof (sin2_cos2 b) as B. unfold Rsqr in *.
  set (sa := sin a) in *. set (ca := cos a) in *. set (sb := sin b) in *. set (cb := cos b) in *. clearbody sa ca sb cb.
  assert (ca * ca = 1 - sa * sa)%R as A' by lra. assert (cb * cb = 1 - sb * sb)%R as B' by lra.
  apply P_eq; cbn; ring [A' B'].
Qed.
Lemma centre_line r ox oy oz ahead yaw pitch roll zoom r' t : 0 <= rd_X r <= int_max -> 0 <= rd_Y r <= int_max ->
  rd_set_camera r ox oy oz ahead yaw pitch roll zoom = Ok r' -> (t + ahead <> 0)%R ->
  project (rd_cam r') (along (mkP ox oy oz) (sight yaw pitch) t) = Ok (rd_X r / 2, rd_Y r / 2, (1 / (t + ahead))%R).
Proof.
  intros HX HY E NZ. destruct (set_camera_R r ox oy oz ahead yaw pitch roll zoom) as (e & Ee & E2). rewrite E2 in E. injection E as <-. cbn [rd_cam]. set (c := mkCam _ _ _ _ _ _ _ _).
  pose proof (sight_local yaw pitch roll e c (mkP ox oy oz) t Ee eq_refl eq_refl) as L. change (cam_ahead c) with ahead in L.
  assert (cam_depth c (along (mkP ox oy oz) (sight yaw pitch) t) = t + ahead)%R as D by (unfold cam_depth; rewrite L; reflexivity).
  rewrite project_R by (rewrite D; exact NZ). rewrite D, L. cbn [px py]. change (cam_cx c) with (Z.quot (rd_X r) 2). change (cam_cy c) with (Z.quot (rd_Y r) 2).
  rewrite !Z.quot_div_nonneg by lia. assert (forall n, 0 <= n <= int_max -> ntrunc (0 * cam_zoom c / (t + ahead) + IZR (n / 2) + 1 / 2)%R = Ok (n / 2)) as K.
  { intros n Hn. apply trunc_R; [|unfold Rdiv at 1; rewrite !Rmult_0_l; lra]. assert (0 <= n / 2) by (apply Z.div_pos; lia). assert (n / 2 <= n) by (apply Z.div_le_upper_bound; lia). lia. }
  rewrite !K by assumption. reflexivity.
Qed.
Lemma shift_dist (a b : pt3) h : dist3 (mkP (px a) (py a) (nadd (pz a) h)) (mkP (px b) (py b) (nadd (pz b) h)) = dist3 a b.
Proof. unfold dist3, len3. f_equal. unfold dot3, sub3. cbn. ring. Qed.
Lemma camera_isometry r ox oy oz ahead yaw pitch roll zoom r' p q : rd_set_camera r ox oy oz ahead yaw pitch roll zoom = Ok r' ->
  dist3 (local_ref (rd_cam r') p) (local_ref (rd_cam r') q) = dist3 p q.
Proof.
  intros E. destruct (set_camera_R r ox oy oz ahead yaw pitch roll zoom) as (e & Ee & E2). rewrite E2 in E. injection E as <-. destruct (euler_facts yaw pitch roll) as (e' & Ee' & D & _). rewrite Ee in Ee'. injection Ee' as <-.
  cbn [rd_cam]. unfold local_ref. cbn [cam_x cam_y cam_z cam_ahead cam_rot]. cbv zeta.
  etransitivity; [apply shift_dist|]. rewrite D. unfold dist3, len3. f_equal. unfold dot3, sub3. cbn. ring.
Qed.
(** Points on one ray from the eye fall on one pixel. *)
Lemma same_ray (c : Camera R) p q k sx sy w : (0 < k)%R -> px (local_ref c q) = (k * px (local_ref c p))%R -> py (local_ref c q) = (k * py (local_ref c p))%R ->
  cam_depth c q = (k * cam_depth c p)%R -> project c p = Ok (sx, sy, w) -> project c q = Ok (sx, sy, (w / k)%R).
Proof.
  intros K X Y Z E. destruct (project_w c p sx sy w E) as [NZ W]. rewrite project_R in E by exact NZ. assert (k * cam_depth c p <> 0)%R as NZ' by (apply Rmult_integral_contrapositive_currified; [lra|exact NZ]).
  rewrite project_R by (rewrite Z; exact NZ'). rewrite X, Y, Z.
  replace (k * px (local_ref c p) * cam_zoom c / (k * cam_depth c p))%R with (px (local_ref c p) * cam_zoom c / cam_depth c p)%R by (field; split; [exact NZ|lra]).
  replace (k * py (local_ref c p) * cam_zoom c / (k * cam_depth c p))%R with (py (local_ref c p) * cam_zoom c / cam_depth c p)%R by (field; split; [exact NZ|lra]).
  destruct (ntrunc _) as [sx'|]; [|discriminate]. cbn [bind] in E |- *. destruct (ntrunc _) as [sy'|]; [|discriminate]. cbn [bind] in E |- *. injection E as -> -> E. rewrite <- E. f_equal. f_equal. field. split; [exact NZ|lra].
Qed.
(** In doubles a point at depth zero converts an infinity or a NaN to int. *)
Lemma plus_nonfin (a b : f64) : fin64 a = false -> fin64 (b64_plus mode_NE a b) = false.
Proof. destruct a as [s|s|s pl H|s m e H]; intros F; try discriminate; destruct b as [s'|s'|s' pl' H'|s' m' e' H']; cbn; try reflexivity. destruct s; destruct s'; reflexivity. Qed.
Lemma div_zero_nonfin (a b : f64) : f64_eqb b (f64_ofZ 0) = true -> fin64 (b64_div mode_NE a b) = false.
Proof.
  intros H. apply eqb64 in H. destruct H as (N & _ & E). change (ext (f64_ofZ 0)) with 0%R in E. destruct b as [s'|s'|s' pl' H'|s' m' e' H']; try discriminate.
  - destruct a as [s|s|s pl H|s m e H]; reflexivity.
  - cbn [ext] in E. pose proof bpow_pos1024. destruct s'; lra.
  - cbn [ext Binary.B2R] in E. exfalso. apply eq_0_F2R in E. destruct s'; discriminate.
Qed.
Lemma project_zero_f64 (TR : Trig f64) (c : Camera f64) p : neqb (pz (local_ref c p)) n0 = true -> project c p = Err FBadConv.
Proof.
  intros H. unfold project. cbv zeta. cbn [ndiv F64Num bind]. cbn [ntrunc F64Num]. unfold f64_trunc at 1.
  assert (forall a b z, fin64 (@nadd f64 F64Num (@nadd f64 F64Num (b64_div mode_NE z (pz (local_ref c p))) a) b) = false) as K.
  { intros a b z. cbn [nadd F64Num]. apply plus_nonfin, plus_nonfin, div_zero_nonfin. exact H. }
  rewrite K. reflexivity.
Qed.

(** ** Faces and solids *)
Section Gen.
Context {T : Type} {N : Num T}.
Lemma face_copy_ok (f : Face T) a : reach (fmesh f) -> shows (fmesh f) a -> exists f', face_copy f = Ok f' /\ fcolor f' = fcolor f /\ shows (fmesh f') (mkA (averts a) (map (fun t => (t, true)) (live a)) (acolor a)).
Proof. intros Rf S. destruct (copy_shows (fmesh f) a Rf S mesh_new) as (m & _ & E & S'). exists (mkFace m (fcolor f)). unfold face_copy. rewrite E. split; [reflexivity|]. split; [reflexivity|exact S']. Qed.
Lemma face_assign_keeps (x y : Face T) a : reach (fmesh x) -> shows (fmesh x) a -> exists z, face_assign x y = Ok (x, z) /\ fcolor z = fcolor x /\ shows (fmesh z) (mkA (averts a) (map (fun t => (t, true)) (live a)) (acolor a)).
Proof. intros Rf S. destruct (face_copy_ok x a Rf S) as (z & E & C & S'). exists z. unfold face_assign. rewrite E. split; [reflexivity|]. split; assumption. Qed.
Lemma solid_copy_ok (s : Solid T) a : reach (smesh s) -> shows (smesh s) a -> exists s', solid_copy s = Ok s' /\ sfaces s' = [] /\ shows (smesh s') (mkA (averts a) (map (fun t => (t, true)) (live a)) (acolor a)).
Proof. intros Rf S. destruct (copy_shows (smesh s) a Rf S mesh_new) as (m & _ & E & S'). exists (mkSolid m []). unfold solid_copy. rewrite E. split; [reflexivity|]. split; [reflexivity|exact S']. Qed.
Lemma solid_assign_keeps (x y : Solid T) a : reach (smesh x) -> shows (smesh x) a -> exists z, solid_assign x y = Ok (x, z) /\ sfaces z = [].
Proof. intros Rf S. destruct (solid_copy_ok x a Rf S) as (z & E & C & S'). exists z. unfold solid_assign. rewrite E. split; [reflexivity|exact C]. Qed.
Lemma solid_add_face_ok (s : Solid T) f a : reach (fmesh f) -> shows (fmesh f) a -> exists s' f', solid_add_face s f = Ok s' /\ smesh s' = smesh s /\ sfaces s' = sfaces s ++ [f'] /\ fcolor f' = fcolor f /\ shows (fmesh f') (mkA (averts a) (map (fun t => (t, true)) (live a)) (acolor a)).
Proof. intros Rf S. destruct (face_copy_ok f a Rf S) as (f' & E & C & S'). unfold solid_add_face. rewrite E. cbn [bind]. eexists. exists f'. split; [reflexivity|]. repeat split; assumption || apply S'. Qed.
End Gen.
