(** Property C83, continued: where the camera shows a point. *)
From Coq Require Import ZArith List Bool Reals Lia Lra.
From Verif Require Import Base Num MGeometry MKernel MMesh MTransform MRender SMesh SReach SGeom SMeasure SRender SCamera LRender5 LCamera.
Import ListNotations.
Open Scope Z_scope.

(** C83: the pixel of a point: zoom times its offset along the axes of the image divided by its depth, from the centre of the
    image, rounded to the nearest whole number (truncated towards zero to the left of and above the image). *)
Theorem C83_screen_position : forall (r : Renderer R) (ox oy oz ahead yaw pitch roll zoom : R) (r' : Renderer R) (p : pt3) (sx sy : Z) (w : R),
  0 <= rd_X r -> 0 <= rd_Y r -> rd_set_camera r ox oy oz ahead yaw pitch roll zoom = Ok r' -> project (rd_cam r') p = Ok (sx, sy, w) ->
  let d := sub3 p (mkP ox oy oz) in let depth := (dot3 d (sight yaw pitch) + ahead)%R in
  let x := (IZR (rd_X r / 2) + zoom * (dot3 d (right yaw pitch roll) / depth))%R in let y := (IZR (rd_Y r / 2) + zoom * (dot3 d (down yaw pitch roll) / depth))%R in
  depth <> 0%R /\ w = (1 / depth)%R /\ ((-1 / 2 <= x)%R -> nearest_int x sx) /\ ((-1 / 2 <= y)%R -> nearest_int y sy) /\ (Rabs (IZR sx - x) < 3 / 2)%R /\ (Rabs (IZR sy - y) < 3 / 2)%R.
Proof. exact screen_position. Qed.
Print Assumptions C83_screen_position.
(** The axes of the image and the direction of sight are perpendicular unit vectors. *)
Theorem C83_image_axes : forall yaw pitch roll : R, let r := right yaw pitch roll in let d := down yaw pitch roll in let s := sight yaw pitch in
  (dot3 r r = 1 /\ dot3 d d = 1 /\ dot3 s s = 1 /\ dot3 r d = 0 /\ dot3 r s = 0 /\ dot3 d s = 0)%R.
Proof. exact axes_orthonormal. Qed.
Print Assumptions C83_image_axes.
(** The camera of a new renderer: y points up in the image; with zoom 0 everything falls on the first pixel. *)
Theorem C83_new_camera : exists c : Camera R, cam_new = Ok c /\ forall p, local_ref c p = mkP (px p) (- py p)%R (pz p) /\ (pz p <> 0%R -> project c p = Ok (0, 0, (1 / pz p)%R)).
Proof. exact cam_new_view. Qed.
Print Assumptions C83_new_camera.
(** Truncation: a point one pixel to the left of the image is shown in its first column. *)
Theorem C83_first_column_wide : exists (r r' : Renderer R) p, rd_X r = 0 /\ rd_set_camera r 0%R 0%R 0%R 0%R 0%R 0%R 0%R 1%R = Ok r' /\ local_ref (rd_cam r') p = mkP (-1)%R 0%R 1%R /\ project (rd_cam r') p = Ok (0, 0, 1%R).
Proof. exact first_column. Qed.
Print Assumptions C83_first_column_wide.
Example C83_axes_case : right 0 0 0 = mkP 1%R 0%R 0%R /\ down 0 0 0 = mkP 0%R (-1)%R 0%R /\ sight 0 0 = mkP 0%R 0%R 1%R.
Proof. unfold right, down, mix, level_right, level_down, sight. cbn. rewrite !Rmult_0_l, cos_0, sin_0. repeat split; apply LGeom.P_eq; cbn; ring. Qed.
