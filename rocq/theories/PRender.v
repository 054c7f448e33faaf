(** Properties C80 to C84: renderer, shading, camera, faces and solids. *)
From Coq Require Import ZArith List Bool Reals Lra Lia Permutation.
From Verif Require Import Base Num MGeometry MKernel MMesh MTransform MStl MF64 MRender SMesh SReach SGeom SMeasure SRender LRender LRender2 LRender3 LRender4 LRender5 LRender6 LReach LMesh LBase LTransform PMesh.
Import ListNotations.
Open Scope Z_scope.

(** C80. Whatever is called in whatever order, with any coordinates, the buffers keep their size and no
    access leaves them ([FOob] is the outcome of such an access).  A call may still stop on a failed
    assertion, a division by zero, a conversion out of range or an overflow of int.  True of reals and of doubles. *)
Theorem C80_within_buffers : forall (T : Type) (N : Num T) (TR : Trig T) (FL : Flt T) (X Y : Z) (r : Renderer T) (os : list (rop T)),
  sane T -> 0 <= X <= int_max -> 0 <= Y <= int_max -> framed r X Y -> Forall proper os ->
  match rrun r os with Ok r' => framed r' X Y | Err e => e <> FOob end.
Proof. intros T N TR FL. exact run_safe. Qed.
Print Assumptions C80_within_buffers.
Theorem C80_arithmetics : sane R /\ sane f64.
Proof. exact (conj sane_R sane_f64). Qed.
Print Assumptions C80_arithmetics.
Theorem C80_clear : forall (T : Type) (N : Num T) (X Y : Z) (r : Renderer T), 0 <= X -> 0 <= Y -> framed r X Y ->
  exists r', rd_clear r = Ok r' /\ settings r' = settings r /\ framed r' X Y /\ forall k, 0 <= k < X * Y -> pixel r' k = (n0, rd_bg r).
Proof. intros T N. exact clear_ok. Qed.
Print Assumptions C80_clear.
Theorem C80_new : forall (T : Type) (N : Num T) (TR : Trig T) (X Y : Z) (pix : list Z) (c : Camera T), 0 <= X -> 0 <= Y -> X * Y <= int_max -> vsize pix = X * Y -> cam_new = Ok c ->
  exists r, rd_new pix X Y = Ok r /\ settings r = (c, [], X, Y, 0) /\ framed r X Y /\ forall k, 0 <= k < X * Y -> pixel r k = (n0, 0).
Proof. intros T N TR. exact new_ok. Qed.
Print Assumptions C80_new.
(** A window of more than 2147483647 pixels: the size of its depth buffer overflows. *)
Theorem C80_large_window : forall (T : Type) (N : Num T) (TR : Trig T) (X Y : Z) (pix : list Z) (c : Camera T), int_max < X * Y -> cam_new = Ok c -> rd_new pix X Y = Err FOverflow.
Proof. intros T N TR. exact new_large. Qed.
Print Assumptions C80_large_window.
Example C80_case : (exists r : Renderer f64, @rd_new f64 F64Num level_trig (repeat 0 16) 4 4 = Ok r /\ framed r 4 4) /\ Forall proper (scene ++ [far; near]) /\
  view [far] = Ok [254; 254; 254; 254; 254; 254; 254; 254; 254; 254; 254; 7; 7; 7; 7; 7] /\ (exists c : Camera R, cam_new = Ok c).
Proof. split; [exact new_f64|]. split; [repeat constructor|]. split; [exact view_far|exact cam_new_R]. Qed.

(** C81. Triangles, meshes and pixels never take a depth down.  [depth] is 1/z: greater is nearer.
    [clean] holds after every clear() and constructor. *)
Theorem C81_depth_never_decreases : forall (T : Type) (N : Num T) (TR : Trig T) (FL : Flt T), ordered T -> rounds T ->
  forall (X Y : Z) (r : Renderer T) (os : list (rop T)) (r' : Renderer T), 0 <= X -> 0 <= Y -> framed r X Y -> clean r -> Forall no_line os -> rrun r os = Ok r' ->
  clean r' /\ forall k, 0 <= k < X * Y -> (depth r' k <? depth r k)%num = false.
Proof. intros T N TR FL. exact run_mono. Qed.
Print Assumptions C81_depth_never_decreases.
Theorem C81_clear_is_clean : forall (T : Type) (N : Num T) (FL : Flt T), ordered T -> rounds T ->
  forall (X Y : Z) (r r' : Renderer T), 0 <= X -> 0 <= Y -> framed r X Y -> rd_clear r = Ok r' -> clean r'.
Proof. intros T N FL. exact clear_clean. Qed.
Print Assumptions C81_clear_is_clean.
(** The picture of several filled shapes is, pixel by pixel, the nearest of the pictures each of them would give alone. *)
Theorem C81_nearest_wins : forall (T : Type) (N : Num T) (TR : Trig T) (FL : Flt T), ordered T ->
  forall (X Y : Z) (r : Renderer T) (os : list (rop T)) (r' : Renderer T), 0 <= X -> 0 <= Y -> framed r X Y -> clean r -> Forall filled os -> rrun r os = Ok r' ->
  exists ims, Forall2 (fun o im => rstep r o = Ok im) os ims /\ forall k, 0 <= k < X * Y -> pixel r' k = nearest (pixel r k) (map (fun im => pixel im k) ims).
Proof. intros T N TR FL. exact filled_nearest. Qed.
Print Assumptions C81_nearest_wins.
(** Another order of drawing also succeeds; the depths are the same, and the colours too wherever no two
    shapes tie (exact equality of depths and colours there; a tie shows the first one drawn). *)
Theorem C81_order_irrelevant_partial : forall (T : Type) (N : Num T) (TR : Trig T) (FL : Flt T), ordered T ->
  forall (X Y : Z) (r : Renderer T) (os os' : list (rop T)) (r1 : Renderer T), 0 <= X -> 0 <= Y -> framed r X Y -> clean r -> Forall filled os -> Permutation os os' -> rrun r os = Ok r1 ->
  exists r2, rrun r os' = Ok r2 /\ forall k, 0 <= k < X * Y -> (depth r1 k <? depth r2 k)%num = false /\ (depth r2 k <? depth r1 k)%num = false /\
    ((forall o o' a b, In o os -> In o' os -> rstep r o = Ok a -> rstep r o' = Ok b ->
        (depth a k <? depth b k)%num = false -> (depth b k <? depth a k)%num = false -> pixel a k = pixel b k) ->
     pixel r1 k = pixel r2 k).
Proof. intros T N TR FL. exact filled_order. Qed.
Print Assumptions C81_order_irrelevant_partial.
Theorem C81_arithmetics : ordered R /\ ordered f64 /\ rounds f64 /\ @rounds R RNum exact_flt.
Proof. exact (conj ordered_R (conj ordered_f64 (conj rounds_f64 rounds_exact))). Qed.
Print Assumptions C81_arithmetics.
(** draw_line can put a farther point over a nearer one: it compares with a margin of 0.00001. *)
Theorem C81_lines_refuted : exists r0 r1 r2 : Renderer R, rd_new (repeat 0 16) 4 4 = Ok r0 /\
  @rrun R RNum RTrig exact_flt r0 [RCamera 0%R 0%R 0%R 0%R 0%R 0%R 0%R 1%R; RPixel pA 1] = Ok r1 /\ @rrun R RNum RTrig exact_flt r1 [RLine pB pC 2] = Ok r2 /\
  pixel r1 10 = (1%R, 1) /\ pixel r2 10 = ((100000 / 100001)%R, 2).
Proof. exact line_lowers. Qed.
Print Assumptions C81_lines_refuted.
(** In doubles, two triangles in the same place: the order shows. *)
Theorem C81_ties_refuted : view [near; near'] = view [near] /\ view [near'; near] = view [near'] /\ view [near] <> view [near'].
Proof. exact view_tie. Qed.
Print Assumptions C81_ties_refuted.
Example C81_case : view [far; near] = Ok [65024; 65024; 65024; 65024; 254; 65024; 65024; 65024; 254; 65024; 65024; 65024; 7; 7; 7; 7] /\
  view [near; far] = view [far; near] /\ Forall filled [far; near] /\ Forall no_line [far; near; RPixel (P64 0 0 1) 3] /\ Permutation [far; near] [near; far].
Proof. split; [exact (proj1 view_both)|]. split; [exact (proj2 view_both)|]. split; [repeat constructor|]. split; [repeat constructor|apply perm_swap]. Qed.

(** C82. The value of each channel, between 0 and 255, as long as the light on it is under 8388607.998. *)
Theorem C82_channels_partial : forall (ls : list (Light R)) (c : Z) (n : pt3), Forall bright ls ->
  (forall k, k = 16 \/ k = 8 \/ k = 0 -> (256 * shade ls c n k + 1 / 2 < 2147483648)%R) ->
  compute_color ls c n = Ok (rgb (shown (shade ls c n 16)) (shown (shade ls c n 8)) (shown (shade ls c n 0))) /\
  (forall k, k = 16 \/ k = 8 \/ k = 0 -> 0 <= shown (shade ls c n k) <= 255).
Proof. exact color_ok. Qed.
Print Assumptions C82_channels_partial.
(** Beyond, the conversion to int is out of range (undefined in C++) before the value is capped. *)
Theorem C82_too_bright_refuted : forall (ls : list (Light R)) (c : Z) (n : pt3), Forall bright ls -> (2147483648 <= 256 * shade ls c n 16 + 1 / 2)%R ->
  compute_color ls c n = Err FBadConv.
Proof. exact color_overflow. Qed.
Print Assumptions C82_too_bright_refuted.
Theorem C82_ambient_light : forall (c : Z) (f : R) (l : Light R), (0 <= f)%R -> light_ambient c f = Ok l ->
  bright l /\ forall k n, k = 16 \/ k = 8 \/ k = 0 -> light_on l k n = (f * (IZR (byte c k) / 256))%R.
Proof. exact ambient_bright. Qed.
Print Assumptions C82_ambient_light.
Theorem C82_diffuse_light : forall (c : Z) (f : R) (d : pt3) (l : Light R), (0 <= f)%R -> light_diffuse c f d = Ok l ->
  bright l /\ forall k n, k = 16 \/ k = 8 \/ k = 0 -> light_on l k n = (f * (IZR (byte c k) / 256) * Rmax 0 (dot3 n d))%R.
Proof. exact diffuse_bright. Qed.
Print Assumptions C82_diffuse_light.
Theorem C82_black_without_lights : forall (c : Z) (n : pt3), compute_color (@nil (Light R)) c n = Ok 0.
Proof. exact color_dark. Qed.
Print Assumptions C82_black_without_lights.
Theorem C82_light_order : forall (ls ls' : list (Light R)) (c : Z) (n : pt3), Permutation ls ls' -> compute_color ls c n = compute_color ls' c n.
Proof. exact color_perm. Qed.
Print Assumptions C82_light_order.
(** In doubles the order can change a channel by one level. *)
Theorem C82_double_order_refuted : light_ambient 8388608 fa = Ok (lit fa) /\ light_ambient 8388608 fb = Ok (lit fb) /\ f64_leb (f64_ofZ 0) fa = true /\ f64_leb (f64_ofZ 0) fb = true /\
  compute_color [lit fa; lit fb; lit fb] 8388608 up = Ok (rgb 127 0 0) /\ compute_color [lit fb; lit fb; lit fa] 8388608 up = Ok (rgb 128 0 0).
Proof. exact order_shows. Qed.
Print Assumptions C82_double_order_refuted.
Example C82_case : Forall bright [LAmbient (1 / 2) (1 / 4) 0; LDiffuse 1 1 1 (mkP 0 0 1)]%R /\
  shade [LAmbient (1 / 2) (1 / 4) 0; LDiffuse 1 1 1 (mkP 0 0 1)]%R 16744448 (mkP 0 0 1)%R 8 = (5 / 8)%R.
Proof.
  split. { repeat constructor; cbn; lra. } cbn. unfold dot3. cbn. rewrite Rmax_right by lra. change (byte 16744448 8) with 128. lra.
Qed.

(** C83. *)
Theorem C83_in_front : forall (c : Camera R) (p : pt3) (sx sy : Z) (w : R), project c p = Ok (sx, sy, w) ->
  (w = 1 / cam_depth c p /\ (0 < w <-> 0 < cam_depth c p))%R.
Proof. exact project_sign. Qed.
Print Assumptions C83_in_front.
Theorem C83_distance_order : forall (c : Camera R) (p q : pt3) (x y : Z) (w : R) (x' y' : Z) (w' : R), project c p = Ok (x, y, w) -> project c q = Ok (x', y', w') ->
  (0 < cam_depth c p)%R -> (0 < cam_depth c q)%R -> ((cam_depth c p < cam_depth c q <-> w' < w) /\ (cam_depth c p = cam_depth c q <-> w = w'))%R.
Proof. exact project_order. Qed.
Print Assumptions C83_distance_order.
(** The camera looks along [sight yaw pitch]; the whole line falls on the centre of the image, at its distance plus ahead. *)
Theorem C83_centre_line : forall (r : Renderer R) (ox oy oz ahead yaw pitch roll zoom : R) (r' : Renderer R) (t : R), 0 <= rd_X r <= int_max -> 0 <= rd_Y r <= int_max ->
  rd_set_camera r ox oy oz ahead yaw pitch roll zoom = Ok r' -> (t + ahead <> 0)%R ->
  project (rd_cam r') (along (mkP ox oy oz) (sight yaw pitch) t) = Ok (rd_X r / 2, rd_Y r / 2, (1 / (t + ahead))%R).
Proof. exact centre_line. Qed.
Print Assumptions C83_centre_line.
Theorem C83_rigid : forall (r : Renderer R) (ox oy oz ahead yaw pitch roll zoom : R) (r' : Renderer R) (p q : pt3),
  rd_set_camera r ox oy oz ahead yaw pitch roll zoom = Ok r' -> dist3 (local_ref (rd_cam r') p) (local_ref (rd_cam r') q) = dist3 p q.
Proof. exact camera_isometry. Qed.
Print Assumptions C83_rigid.
Theorem C83_one_ray_one_pixel : forall (c : Camera R) (p q : pt3) (k : R) (sx sy : Z) (w : R), (0 < k)%R ->
  px (local_ref c q) = (k * px (local_ref c p))%R -> py (local_ref c q) = (k * py (local_ref c p))%R -> cam_depth c q = (k * cam_depth c p)%R ->
  project c p = Ok (sx, sy, w) -> project c q = Ok (sx, sy, (w / k)%R).
Proof. exact same_ray. Qed.
Print Assumptions C83_one_ray_one_pixel.
(** At depth zero the division comes before the test: over the reals it fails; in doubles it gives an infinity or a NaN, whose conversion to int is undefined. *)
Theorem C83_depth_zero_real : forall (c : Camera R) (p : pt3), cam_depth c p = 0%R -> project c p = Err FDivZero.
Proof. exact project_behind. Qed.
Print Assumptions C83_depth_zero_real.
Theorem C83_depth_zero_double : forall (TR : Trig f64) (c : Camera f64) (p : Point3 f64), (pz (local_ref c p) =? n0)%num = true -> project c p = Err FBadConv.
Proof. exact project_zero_f64. Qed.
Print Assumptions C83_depth_zero_double.
Example C83_case : exists (r r' : Renderer R), rd_X r = 640 /\ rd_Y r = 480 /\ rd_set_camera r 1%R 2%R 3%R 100%R 30%R 40%R 50%R 2%R = Ok r' /\ (7 + 100 <> 0)%R /\
  (0 < cam_depth (rd_cam r') (along (mkP 1 2 3) (sight 30 40) 7))%R.
Proof.
  set (r := mkRd (mkCam 0 0 0 0 0 0 0 (mkEuler 0 0 0 0 0 0))%R [] [] [] 640 480 0 : Renderer R). destruct (set_camera_R r 1 2 3 100 30 40 50 2)%R as (e & Ee & E). exists r. eexists. split; [reflexivity|]. split; [reflexivity|]. split; [exact E|]. split; [lra|].
  cbn [rd_cam]. set (c := mkCam _ _ _ _ _ _ _ _). unfold cam_depth. rewrite (sight_local 30 40 50 e c (mkP 1 2 3)%R 7 Ee eq_refl eq_refl). cbn. lra.
Qed.

(** C84 is false: x = y leaves x as it is and returns a new copy of x (never freed); copying a solid loses its faces. *)
Theorem C84_face_copy : forall (T : Type) (N : Num T) (f : Face T) (a : AMesh T), reach (fmesh f) -> shows (fmesh f) a ->
  exists f', face_copy f = Ok f' /\ fcolor f' = fcolor f /\ shows (fmesh f') (mkA (averts a) (map (fun t => (t, true)) (live a)) (acolor a)).
Proof. intros T N. exact face_copy_ok. Qed.
Print Assumptions C84_face_copy.
Theorem C84_face_assign_refuted : forall (T : Type) (N : Num T) (x y : Face T) (a : AMesh T), reach (fmesh x) -> shows (fmesh x) a ->
  exists z, face_assign x y = Ok (x, z) /\ fcolor z = fcolor x /\ shows (fmesh z) (mkA (averts a) (map (fun t => (t, true)) (live a)) (acolor a)).
Proof. intros T N. exact face_assign_keeps. Qed.
Print Assumptions C84_face_assign_refuted.
Theorem C84_solid_copy_refuted : forall (T : Type) (N : Num T) (s : Solid T) (a : AMesh T), reach (smesh s) -> shows (smesh s) a ->
  exists s', solid_copy s = Ok s' /\ sfaces s' = [] /\ shows (smesh s') (mkA (averts a) (map (fun t => (t, true)) (live a)) (acolor a)).
Proof. intros T N. exact solid_copy_ok. Qed.
Print Assumptions C84_solid_copy_refuted.
Theorem C84_solid_assign_refuted : forall (T : Type) (N : Num T) (x y : Solid T) (a : AMesh T), reach (smesh x) -> shows (smesh x) a ->
  exists z, solid_assign x y = Ok (x, z) /\ sfaces z = [].
Proof. intros T N. exact solid_assign_keeps. Qed.
Print Assumptions C84_solid_assign_refuted.
Theorem C84_solid_add_face : forall (T : Type) (N : Num T) (s : Solid T) (f : Face T) (a : AMesh T), reach (fmesh f) -> shows (fmesh f) a ->
  exists s' f', solid_add_face s f = Ok s' /\ smesh s' = smesh s /\ sfaces s' = sfaces s ++ [f'] /\ fcolor f' = fcolor f /\
    shows (fmesh f') (mkA (averts a) (map (fun t => (t, true)) (live a)) (acolor a)).
Proof. intros T N. exact solid_add_face_ok. Qed.
Print Assumptions C84_solid_add_face.
Example C84_case : reach ex_mesh /\ (exists z, face_assign (mkFace (@mesh_new R) 1) (mkFace ex_mesh 2) = Ok (mkFace (@mesh_new R) 1, z)) /\
  solid_copy (mkSolid (@mesh_new R) [mkFace (@mesh_new R) 5]) = Ok (mkSolid (@mesh_new R) []).
Proof. split; [exact ex_mesh_reach|]. split; [eexists; reflexivity|reflexivity]. Qed.
