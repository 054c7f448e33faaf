(** Witnesses: a line that moves a pixel backwards, lights whose order shows. *)
From Coq Require Import ZArith List Bool Reals Lia Lra.
From Flocq Require Import IEEE754.Binary IEEE754.Bits.
From Verif Require Import Base Num MGeometry MKernel MMesh MTransform MStl MF64 MRender SMesh SReach SGeom SMeasure SRender LBase LMesh LReach LGeom LTransform LRender LRender2 LRender3 LRender5.
Import ListNotations.
Open Scope Z_scope.

(** Reals without rounding. *)
Definition exact_flt : Flt R := {| nflt x := x |}.
Lemma rounds_exact : @rounds R RNum exact_flt.
Proof. split; [reflexivity|]. split; [reflexivity|]. split; [intros x H; exact H|]. intros x y _ H. cbn in *. apply Rltb_lt in H. apply Rltb_ge. lra. Qed.

#[local] Existing Instance exact_flt.
Definition pA : pt3 := mkP 0%R 0%R 1%R.
Definition pB : pt3 := mkP 0%R 0%R (100001 / 100000)%R.
Definition pC : pt3 := mkP (100001 / 100000)%R 0%R (100001 / 100000)%R.
Lemma cam_new_R : exists c : Camera R, cam_new = Ok c.
Proof. unfold cam_new, cam_set_angles, euler_set. rewrite deg_to_rad_R. cbn [bind]. eexists. reflexivity. Qed.
Lemma put_R (r : Renderer R) X Y k test w c : framed r X Y -> 0 <= k < X * Y -> (depth r k < test)%R ->
  put r k test w c = Ok (with_buffers r (list_set (rd_pix r) (Z.to_nat k) c) (list_set (rd_w r) (Z.to_nat k) w)).
Proof.
  intros (A & B & C & D) K L. unfold put. destruct (vget_in_range (rd_w r) k ltac:(lia)) as [old E]. rewrite E. cbn [bind].
  assert (depth r k = old) as Ed. { unfold depth, pixel. cbn [fst]. apply vget_Ok in E. destruct E as [_ E]. apply nth_error_nth. exact E. }
  rewrite Ed in L. change (nltb old test) with (Rltb old test). rewrite (proj2 (Rltb_lt _ _) L). rewrite !vset_in_range by lia. reflexivity.
Qed.
Lemma line_lowers : exists r0 r1 r2 : Renderer R, rd_new (repeat 0 16) 4 4 = Ok r0 /\
  rrun r0 [RCamera 0%R 0%R 0%R 0%R 0%R 0%R 0%R 1%R; RPixel pA 1] = Ok r1 /\ rrun r1 [RLine pB pC 2] = Ok r2 /\
  pixel r1 10 = (1%R, 1) /\ pixel r2 10 = ((100000 / 100001)%R, 2).
Proof.
  destruct cam_new_R as [c0 C0]. destruct (new_ok 4 4 (repeat 0 16) c0 ltac:(lia) ltac:(lia) ltac:(unfold int_max; lia) eq_refl C0) as (r0 & E0 & S0 & F0 & P0).
  destruct (set_camera_R r0 0%R 0%R 0%R 0%R 0%R 0%R 0%R 1%R) as (e & Ee & Ec). destruct euler_zero as (e' & Ee' & Ez). rewrite Ee in Ee'. injection Ee' as <-.
  set (rc := mkRd _ _ _ _ _ _ _) in Ec. assert (rd_X r0 = 4 /\ rd_Y r0 = 4) as [EX EY] by (split; apply F0).
  assert (framed rc 4 4) as Fc by (exact F0). assert (forall k, pixel rc k = pixel r0 k) as Pc by reflexivity.
  assert (rd_cam rc = mkCam 0%R 0%R 0%R 0%R 1%R 2 2 e) as CC by (unfold rc; cbn [rd_cam]; rewrite EX, EY; reflexivity).
  assert (forall (r : Renderer R) p, rd_cam r = mkCam 0%R 0%R 0%R 0%R 1%R 2 2 e -> local_ref (rd_cam r) p = mkP (px p) (- py p)%R (pz p)) as LR.
  { intros r p ->. unfold local_ref. cbn [cam_rot]. rewrite Ez. cbn. apply P_eq; cbn; ring. }
  assert (forall (r : Renderer R) x z n, rd_cam r = mkCam 0%R 0%R 0%R 0%R 1%R 2 2 e -> (z <> 0)%R -> 0 <= n < 100 -> (x / z = IZR n)%R -> project (rd_cam r) (mkP x 0%R z) = Ok (n + 2, 2, (1 / z)%R)) as PR.
  { intros r x z n Cr Nz Hn Q. assert (cam_depth (rd_cam r) (mkP x 0%R z) = z) as D by (unfold cam_depth; rewrite LR by exact Cr; reflexivity).
    rewrite project_R by (rewrite D; exact Nz). rewrite D, LR by exact Cr. rewrite Cr. cbn [px py cam_zoom cam_cx cam_cy]. rewrite (trunc_R _ (n + 2)).
    - cbn [bind]. rewrite (trunc_R _ 2); [reflexivity|unfold int_max; lia|]. unfold Rdiv at 1 3. rewrite Ropp_0, !Rmult_0_l. lra.
    - unfold int_max. lia.
    - rewrite Rmult_1_r, Q. rewrite plus_IZR. lra. }
  set (r1 := with_buffers rc (list_set (rd_pix rc) (Z.to_nat 10) 1) (list_set (rd_w rc) (Z.to_nat 10) 1%R)).
  assert (framed r1 4 4) as F1. { destruct Fc as (A & B & C & D). repeat split; [exact A|exact B| |]; unfold r1; cbn [rd_pix rd_w with_buffers]; unfold vsize in *; rewrite list_set_length; assumption. }
  assert (pixel r1 10 = (1%R, 1)) as P1. { unfold r1. rewrite (pixel_set rc 10 1 1%R 10 4 4) by (assumption || lia). reflexivity. }
  assert (rd_cam r1 = rd_cam rc) as C1 by reflexivity.
  exists r0, r1. eexists. split; [exact E0|]. split; [|split; [|split; [exact P1|]]].
  - cbn [rrun rstep]. rewrite Ec. cbn [bind]. unfold draw_pixel. unfold pA. rewrite (PR rc 0%R 1%R 0) by (assumption || lra || lia). cbn [bind]. assert (rd_X rc = 4 /\ rd_Y rc = 4) as [-> ->] by (split; apply Fc). cbn [Z.ltb Z.leb Z.compare orb Z.add Z.mul Pos.mul Pos.add Pos.compare Pos.compare_cont].
    rewrite (put_R rc 4 4). + cbn [bind]. cbn [nflt exact_flt]. unfold r1. do 4 f_equal. field. + exact Fc. + lia. + unfold depth. rewrite Pc, P0 by lia. cbn [fst n0 nofZ RNum]. lra.
  - cbn [rrun rstep]. unfold draw_line, pB, pC. cbv zeta. rewrite (PR r1 0%R (100001 / 100000)%R 0) by (assumption || lra || lia || (rewrite C1; exact CC)).
    rewrite (PR r1 (100001 / 100000)%R (100001 / 100000)%R 1) by (assumption || lra || lia || field || (rewrite C1; exact CC)). cbn [bind]. change (1 + 2 - (0 + 2)) with 1. change (2 - 2) with 0. change (iint 1) with (Ok 1). cbn [bind]. change (iint 0) with (Ok 0). cbn [bind].
    change (@nofZ R RNum 1) with 1%R. change (@nofZ R RNum 0) with 0%R. change (@nabs R RNum 1%R) with (Rabs 1). change (@nabs R RNum 0%R) with (Rabs 0). rewrite Rabs_R1, Rabs_R0. change (@nltb R RNum 0%R 1%R) with (Rltb 0 1). rewrite (proj2 (Rltb_lt 0 1)) by lra.
    rewrite (trunc_R 1%R 1) by (unfold int_max; lia || lra). cbn [bind]. change (1 <? 1) with false. cbv iota. change (@nofZ R RNum 1) with 1%R. rewrite !div_R by lra. cbn [bind].
    rewrite for_step by lia. change (@nofZ R RNum (0 + 2)) with 2%R. change (@nofZ R RNum 2) with 2%R. assert (rd_X r1 = 4 /\ rd_Y r1 = 4) as [-> ->] by (split; apply F1). change (@nofZ R RNum 4) with 4%R.
    change (@nleb R RNum n0 2%R) with (Rleb 0 2). change (@nltb R RNum 2%R 4%R) with (Rltb 2 4). rewrite (proj2 (Rleb_le 0 2)) by lra. rewrite (proj2 (Rltb_lt 2 4)) by lra. cbn [andb]. rewrite (trunc_R 2%R 2) by (unfold int_max; lia || lra). cbn [bind]. change (2 + 2 * 4) with 10.
    rewrite (put_R r1 4 4 10). + cbn [bind]. rewrite for_empty by lia. cbn [bind fst]. reflexivity. + exact F1. + lia. + unfold depth. rewrite P1. cbn. lra.
  - rewrite (pixel_set r1 10 2 _ 10 4 4) by (assumption || lia). cbn. f_equal. field.
Qed.

(** Three lights on one object; doubles. *)
Definition f64_dyad (m e : Z) : f64 := Binary.binary_normalize 53 1024 eq_refl eq_refl BinarySingleNaN.mode_NE m e false.
Definition fa : f64 := f64_dyad (255 * 2 ^ 45 - 1) (-52).
Definition fb : f64 := f64_dyad 15 (-57).
Definition lit (f : f64) : Light f64 := match light_ambient 8388608 f with Ok l => l | Err _ => LAmbient f f f end.
Definition up : Point3 f64 := mkP (f64_ofZ 0) (f64_ofZ 0) (f64_ofZ 1).
Lemma order_shows : light_ambient 8388608 fa = Ok (lit fa) /\ light_ambient 8388608 fb = Ok (lit fb) /\ f64_leb (f64_ofZ 0) fa = true /\ f64_leb (f64_ofZ 0) fb = true /\
  compute_color [lit fa; lit fb; lit fb] 8388608 up = Ok (rgb 127 0 0) /\ compute_color [lit fb; lit fb; lit fa] 8388608 up = Ok (rgb 128 0 0).
Proof. split; [reflexivity|]. split; [reflexivity|]. split; [vm_compute; reflexivity|]. split; [vm_compute; reflexivity|]. split; vm_compute; reflexivity. Qed.

(** A picture in doubles.  Only angle 0 is used, whose cosine and sine are 1 and 0. *)
Definition level_trig : Trig f64 := {| ncos _ := f64_ofZ 1; nsin _ := f64_ofZ 0 |}.
#[local] Existing Instance level_trig.
Definition P64 (x y z : Z) : Point3 f64 := mkP (f64_ofZ x) (f64_ofZ y) (f64_ofZ z).
Definition scene : list (rop f64) :=
  let z := f64_ofZ in [RCamera (z 0) (z 0) (z 0) (z 0) (z 0) (z 0) (z 0) (z 1); RAmbient 16777215 (z 1); RBackground 7; RClear].
Definition far : rop f64 := RTriangle (P64 (-4) 4 2) (P64 4 4 2) (P64 (-4) (-4) 2) 255 true.
Definition near : rop f64 := RTriangle (P64 (-2) 2 1) (P64 2 2 1) (P64 0 (-2) 1) 65280 true.
Definition near' : rop f64 := RTriangle (P64 (-2) 2 1) (P64 2 2 1) (P64 0 (-2) 1) 255 true.
Definition view (os : list (rop f64)) : res (list Z) := do r <- rd_new (repeat 0 16) 4 4; do r <- rrun r (scene ++ os); Ok (rd_pix r).
Lemma view_far : view [far] = Ok [254; 254; 254; 254; 254; 254; 254; 254; 254; 254; 254; 7; 7; 7; 7; 7]. Proof. vm_compute. reflexivity. Qed.
Lemma view_near : view [near] = Ok [65024; 65024; 65024; 65024; 7; 65024; 65024; 65024; 7; 65024; 65024; 65024; 7; 7; 7; 7]. Proof. vm_compute. reflexivity. Qed.
Lemma view_both : view [far; near] = Ok [65024; 65024; 65024; 65024; 254; 65024; 65024; 65024; 254; 65024; 65024; 65024; 7; 7; 7; 7] /\ view [near; far] = view [far; near].
Proof. split; vm_compute; reflexivity. Qed.
(** Two triangles in the same place: the first one drawn is seen. *)
Lemma view_tie : view [near; near'] = view [near] /\ view [near'; near] = view [near'] /\ view [near] <> view [near'].
Proof. split; [vm_compute; reflexivity|]. split; [vm_compute; reflexivity|]. vm_compute. discriminate. Qed.
Lemma new_f64 : exists r : Renderer f64, rd_new (repeat 0 16) 4 4 = Ok r /\ framed r 4 4.
Proof.
  assert (exists c : Camera f64, cam_new = Ok c) as [c C] by (eexists; reflexivity).
  destruct (new_ok 4 4 (repeat 0 16) c ltac:(lia) ltac:(lia) ltac:(unfold int_max; lia) eq_refl C) as (r & E & _ & F & _). exists r. split; assumption.
Qed.
