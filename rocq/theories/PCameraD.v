(** Property C123: where the camera shows a point, in doubles. *)
From Coq Require Import ZArith List Bool Reals.
From Flocq Require Import Core.
From Verif Require Import Base Num MGeometry MTransform MRender MStl MF64 SGeom SRender SCamera SErr SErrN SErrD SCameraD LErrEx LCameraD.
Open Scope R_scope.

(** A camera is set and a point projected, in doubles and with a good cosine and sine: no fault, and the pixel and the inverse depth are near the exact ones. *)
Theorem C123_screen_position : forall (TR : Trig f64) (k : Z) (r : Renderer f64) (o p : Point3 f64) (ahead yaw pitch roll zoom : f64), good_trig TR -> (-350 <= k <= 350)%Z -> (0 <= rd_X r <= 131072)%Z -> (0 <= rd_Y r <= 131072)%Z ->
  fits 9 yaw -> fits 9 pitch -> fits 9 roll -> fits 16 zoom -> fits k ahead -> fits_pt k o -> fits_pt k p -> let v := mkView (val_pt o) (val ahead) (val yaw) (val pitch) (val roll) in
  in_view k v (val zoom) (rd_X r / 2) (rd_Y r / 2) (val_pt p) ->
  exists r' sx sy w, rd_set_camera r (px o) (py o) (pz o) ahead yaw pitch roll zoom = Ok r' /\ project (rd_cam r') p = Ok (sx, sy, w) /\
    near_pixel (IZR (rd_X r / 2) + val zoom * shown_x v (val_pt p)) sx /\ near_pixel (IZR (rd_Y r / 2) + val zoom * shown_y v (val_pt p)) sy /\ fin w /\ Rabs (val w * depth v (val_pt p) - 1) <= bpow radix2 (-27).
Proof. exact screen_doubles. Qed.
Print Assumptions C123_screen_position.

(** Of two points in front of the camera, the one that is nearer by one part in 2^25 gets the greater inverse depth. *)
Theorem C123_nearer_wins : forall (TR : Trig f64) (k : Z) (r r' : Renderer f64) (o p p' : Point3 f64) (ahead yaw pitch roll zoom : f64) sx sy w sx' sy' w', good_trig TR -> (-350 <= k <= 350)%Z -> (0 <= rd_X r <= 131072)%Z -> (0 <= rd_Y r <= 131072)%Z ->
  fits 9 yaw -> fits 9 pitch -> fits 9 roll -> fits 16 zoom -> fits k ahead -> fits_pt k o -> fits_pt k p -> fits_pt k p' -> let v := mkView (val_pt o) (val ahead) (val yaw) (val pitch) (val roll) in
  in_view k v (val zoom) (rd_X r / 2) (rd_Y r / 2) (val_pt p) -> in_view k v (val zoom) (rd_X r / 2) (rd_Y r / 2) (val_pt p') ->
  rd_set_camera r (px o) (py o) (pz o) ahead yaw pitch roll zoom = Ok r' -> project (rd_cam r') p = Ok (sx, sy, w) -> project (rd_cam r') p' = Ok (sx', sy', w') ->
  0 < depth v (val_pt p) -> depth v (val_pt p) * (1 + bpow radix2 (-25)) <= depth v (val_pt p') -> nltb w' w = true.
Proof. exact order_doubles. Qed.
Print Assumptions C123_nearer_wins.

(** An image of 640 by 480 pixels, a camera at the origin looking along z, moved back by 1, zoom 100: the point (1, 2, 3) is shown at (345, 190). *)
Example C123_case : good_trig correct_trig /\ fits 9 (f64_ofZ 0) /\ fits 16 (f64_ofZ 100) /\ fits 2 (f64_ofZ 1) /\ fits_pt 2 (dp 0 0 0) /\ fits_pt 2 (dp 1 2 3) /\
  let v := mkView (val_pt (dp 0 0 0)) (val (f64_ofZ 1)) (val (f64_ofZ 0)) (val (f64_ofZ 0)) (val (f64_ofZ 0)) in
  in_view 2 v (val (f64_ofZ 100)) (640 / 2) (480 / 2) (val_pt (dp 1 2 3)) /\ depth v (val_pt (dp 1 2 3)) = 4 /\
  IZR (640 / 2) + val (f64_ofZ 100) * shown_x v (val_pt (dp 1 2 3)) = 345 /\ IZR (480 / 2) + val (f64_ofZ 100) * shown_y v (val_pt (dp 1 2 3)) = 190.
Proof. exact camera_case. Qed.
