(** Where a camera shows a point. *)
From Coq Require Import ZArith List Bool Reals Lia Lra.
From Verif Require Import Base Num MGeometry MKernel MMesh MTransform MRender SMesh SReach SGeom SMeasure SRender SCamera LBase LMesh LReach LGeom LTransform LRender LRender2 LRender3 LRender5.
Import ListNotations.
Open Scope Z_scope.

(** The camera of a new renderer: at the origin, zero angles, zero zoom. *)
Lemma cam_new_view : exists c : Camera R, cam_new = Ok c /\ forall p, local_ref c p = mkP (px p) (- py p)%R (pz p) /\ (pz p <> 0%R -> project c p = Ok (0, 0, (1 / pz p)%R)).
Proof.
  unfold cam_new, cam_set_angles, euler_set. rewrite deg_to_rad_R. cbn [bind]. eexists. split; [reflexivity|]. intros p.
  match goal with |- local_ref ?c0 _ = _ /\ _ => set (c := c0) end.
  assert (local_ref c p = mkP (px p) (- py p)%R (pz p)) as L.
  { unfold local_ref, euler_apply, c. cbn. rewrite !Rmult_0_l, cos_0, sin_0. apply P_eq; cbn; ring. }
  split; [exact L|]. intros NZ. assert (cam_depth c p = pz p) as D by (unfold cam_depth; rewrite L; reflexivity). rewrite project_R by (rewrite D; exact NZ). rewrite D, L. cbn [px py].
  change (cam_cx c) with 0. change (cam_cy c) with 0. change (cam_zoom c) with 0%R. rewrite !Rmult_0_r. unfold Rdiv at 1 3. rewrite !Rmult_0_l. rewrite !(trunc_R _ 0) by (try (unfold int_max; lia); lra). reflexivity.
Qed.

Lemma trunc_near x z : ntrunc (x + 1 / 2)%R = Ok z -> ((-1 / 2 <= x)%R -> nearest_int x z) /\ (Rabs (IZR z - x) < 3 / 2)%R.
Proof.
  cbn. unfold Rtrunc. intros E. destruct (Rlt_dec (x + 1 / 2) 0) as [L|L]; match type of E with (if ?b then _ else _) = _ => destruct b end; try discriminate; injection E as <-.
  - pose proof (base_Int_part (- (x + 1 / 2))) as [A B]. rewrite opp_IZR. split; [lra|]. apply Rabs_def1; lra.
  - pose proof (base_Int_part (x + 1 / 2)) as [A B]. split; [intros _; split; lra|]. apply Rabs_def1; lra.
Qed.
Lemma local_axes yaw pitch roll e c p : euler_set yaw pitch roll = Ok e -> cam_rot c = e ->
  let d := sub3 p (mkP (cam_x c) (cam_y c) (cam_z c)) in
  local_ref c p = mkP (dot3 d (right yaw pitch roll)) (dot3 d (down yaw pitch roll)) (dot3 d (sight yaw pitch) + cam_ahead c)%R.
Proof.
  unfold euler_set. rewrite deg_to_rad_R. cbn [bind]. intros [= <-] E. unfold local_ref, euler_apply, right, down, mix, level_right, level_down, sight, dot3, sub3. rewrite E. change degree with kdeg. cbn.
  apply P_eq; cbn; ring.
Qed.
Lemma axes_orthonormal yaw pitch roll : let r := right yaw pitch roll in let d := down yaw pitch roll in let s := sight yaw pitch in
  (dot3 r r = 1 /\ dot3 d d = 1 /\ dot3 s s = 1 /\ dot3 r d = 0 /\ dot3 r s = 0 /\ dot3 d s = 0)%R.
Proof.
  cbv zeta. unfold right, down, mix, level_right, level_down, sight, dot3. cbn [px py pz].
  set (a := (yaw * degree)%R). set (b := (pitch * degree)%R). set (g := (roll * degree)%R). pose proof (sin2_cos2 a) as A. pose proof (sin2_cos2 b) as B. pose proof (sin2_cos2 g) as G. unfold Rsqr in *.
  set (sa := sin a) in *. set (ca := cos a) in *. set (sb := sin b) in *. set (cb := cos b) in *. set (sg := sin g) in *. set (cg := cos g) in *. clearbody sa ca sb cb sg cg.
  assert (ca * ca = 1 - sa * sa)%R as A' by lra. assert (cb * cb = 1 - sb * sb)%R as B' by lra. assert (cg * cg = 1 - sg * sg)%R as G' by lra.
  repeat split; ring [A' B' G'].
Qed.
Lemma screen_position r ox oy oz ahead yaw pitch roll zoom r' p sx sy w : 0 <= rd_X r -> 0 <= rd_Y r -> rd_set_camera r ox oy oz ahead yaw pitch roll zoom = Ok r' -> project (rd_cam r') p = Ok (sx, sy, w) ->
  let d := sub3 p (mkP ox oy oz) in let depth := (dot3 d (sight yaw pitch) + ahead)%R in
  let x := (IZR (rd_X r / 2) + zoom * (dot3 d (right yaw pitch roll) / depth))%R in let y := (IZR (rd_Y r / 2) + zoom * (dot3 d (down yaw pitch roll) / depth))%R in
  depth <> 0%R /\ w = (1 / depth)%R /\ ((-1 / 2 <= x)%R -> nearest_int x sx) /\ ((-1 / 2 <= y)%R -> nearest_int y sy) /\ (Rabs (IZR sx - x) < 3 / 2)%R /\ (Rabs (IZR sy - y) < 3 / 2)%R.
Proof.
  intros HX HY E P d depth x y. destruct (set_camera_R r ox oy oz ahead yaw pitch roll zoom) as (e & Ee & E2). rewrite E2 in E. injection E as <-. cbn [rd_cam] in P. set (c := mkCam _ _ _ _ _ _ _ _) in *.
  pose proof (local_axes yaw pitch roll e c p Ee eq_refl) as L. cbv zeta in L. change (mkP (cam_x c) (cam_y c) (cam_z c)) with (mkP ox oy oz) in L. fold d in L. change (cam_ahead c) with ahead in L. fold depth in L.
  assert (cam_depth c p = depth) as D by (unfold cam_depth; rewrite L; reflexivity). destruct (project_w _ _ _ _ _ P) as [NZ W]. rewrite project_R in P by exact NZ. rewrite D in *. rewrite L in P. cbn [px py] in P.
  change (cam_cx c) with (Z.quot (rd_X r) 2) in P. change (cam_cy c) with (Z.quot (rd_Y r) 2) in P. change (cam_zoom c) with zoom in P. rewrite !Z.quot_div_nonneg in P by lia.
  replace (dot3 d (right yaw pitch roll) * zoom / depth + IZR (rd_X r / 2))%R with x in P by (unfold x; field; exact NZ).
  replace (dot3 d (down yaw pitch roll) * zoom / depth + IZR (rd_Y r / 2))%R with y in P by (unfold y; field; exact NZ).
  destruct (ntrunc (x + 1 / 2)%R) as [zx|] eqn:EX; [|discriminate]. destruct (ntrunc (y + 1 / 2)%R) as [zy|] eqn:EY; [|discriminate]. cbn [bind] in P. injection P as <- <- _.
  apply trunc_near in EX, EY. tauto.
Qed.
(** A point half a pixel to the left of the image is shown in the first column. *)
Lemma first_column : exists (r r' : Renderer R) p, rd_X r = 0 /\ rd_set_camera r 0%R 0%R 0%R 0%R 0%R 0%R 0%R 1%R = Ok r' /\ local_ref (rd_cam r') p = mkP (-1)%R 0%R 1%R /\ project (rd_cam r') p = Ok (0, 0, 1%R).
Proof.
  set (r := mkRd (mkCam 0 0 0 0 0 0 0 (mkEuler 0 0 0 0 0 0))%R [] [] [] 0 0 0 : Renderer R). destruct (set_camera_R r 0 0 0 0 0 0 0 1)%R as (e & Ee & E). exists r. eexists. exists (mkP (-1) 0 1)%R. split; [reflexivity|]. split; [exact E|].
  cbn [rd_cam]. set (c := mkCam _ _ _ _ _ _ _ _). assert (local_ref c (mkP (-1) 0 1)%R = mkP (-1)%R 0%R 1%R) as L.
  { rewrite (local_axes 0 0 0 e c _ Ee eq_refl). unfold right, down, mix, level_right, level_down, sight, dot3, sub3, c. cbn. rewrite !Rmult_0_l, cos_0, sin_0. apply P_eq; cbn; ring. }
  split; [exact L|]. assert (cam_depth c (mkP (-1) 0 1)%R = 1%R) as D by (unfold cam_depth; rewrite L; reflexivity). rewrite project_R by (rewrite D; lra). rewrite D, L. cbn [px py]. change (cam_cx c) with 0. change (cam_cy c) with 0. change (cam_zoom c) with 1%R.
  replace (-1 * 1 / 1 + 0 + 1 / 2)%R with (- (1 / 2))%R by lra.
  assert (ntrunc (- (1 / 2))%R = Ok 0) as ->. { cbn. unfold Rtrunc. destruct (Rlt_dec (- (1 / 2)) 0); [|lra]. rewrite (Int_part_char _ 0) by lra. reflexivity. }
  rewrite (trunc_R _ 0) by (try (unfold int_max; lia); lra). cbn [bind]. do 2 f_equal. lra.
Qed.
