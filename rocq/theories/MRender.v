(** Model of src/Renderer.cpp, src/RendererCamera.cpp, src/RendererLight.cpp, src/Face.cpp, src/Solid.cpp. *)
From Coq Require Import ZArith List Bool.
From Verif Require Import Base Num MGeometry MKernel MMesh MTransform MF64 MStl.
Import ListNotations.
Open Scope Z_scope.

(** [nflt x]: the double value of (float)x. *)
Class Flt (T : Type) := { nflt : T -> T }.
#[global] Instance F64Flt : Flt f64 := { nflt x := f32_to_f64 (f64_to_f32 x) }.

Section Render.
Context {T : Type} {N : Num T} {TR : Trig T} {FL : Flt T}.

(** ** RendererCamera *)
(** RendererCamera.h:20-28 *)
Record Camera := mkCam { cam_x : T; cam_y : T; cam_z : T; cam_ahead : T; cam_zoom : T; cam_cx : Z; cam_cy : Z; cam_rot : Euler T }.
(** RendererCamera.cpp:15-18 *)
Definition cam_set_angles (c : Camera) (yaw pitch roll : T) : res Camera :=
  do e <- euler_set yaw pitch roll;
  Ok (mkCam (cam_x c) (cam_y c) (cam_z c) (cam_ahead c) (cam_zoom c) (cam_cx c) (cam_cy c) e).
(** RendererCamera.cpp:20-24 *)
Definition cam_set_origin (c : Camera) (x y z ahead : T) : Camera :=
  mkCam x y z ahead (cam_zoom c) (cam_cx c) (cam_cy c) (cam_rot c).
(** RendererCamera.cpp:26-31; int division truncates *)
Definition cam_set_screen (c : Camera) (width height : Z) (zoom : T) : Camera :=
  mkCam (cam_x c) (cam_y c) (cam_z c) (cam_ahead c) zoom (Z.quot width 2) (Z.quot height 2) (cam_rot c).
(** RendererCamera.cpp:7-13; the fields are not read before they are set (here they start at 0) *)
Definition cam_new : res Camera :=
  do c <- cam_set_angles (mkCam n0 n0 n0 n0 n0 0 0 (mkEuler n0 n0 n0 n0 n0 n0)) n0 n0 n0;
  Ok (cam_set_screen (cam_set_origin c n0 n0 n0 n0) 0 0 n0).
(** RendererCamera.cpp:33-48 *)
Definition local_ref (c : Camera) (p : Point3 T) : Point3 T :=
  let q := euler_apply (cam_rot c) (mkP (px p - cam_x c)%num (py p - cam_y c)%num (pz p - cam_z c)%num) in
  mkP (px q) (py q) (pz q + cam_ahead c)%num.
(** RendererCamera.cpp:50-60: (screenx, screeny, w) *)
Definition project (c : Camera) (p : Point3 T) : res (Z * Z * T) :=
  let pc := local_ref c p in
  do qx <- ndiv (px pc * cam_zoom c)%num (pz pc);
  do sx <- ntrunc (qx + nofZ (cam_cx c) + nlit 1 2)%num;
  do qy <- ndiv (py pc * cam_zoom c)%num (pz pc);
  do sy <- ntrunc (qy + nofZ (cam_cy c) + nlit 1 2)%num;
  do w <- (if negb (pz pc =? n0)%num then ndiv n1 (pz pc) else Ok n0);
  Ok (sx, sy, w).

(** ** RendererLight *)
(** RendererLight.h:16-40 *)
Inductive Light := LAmbient (r g b : T) | LDiffuse (r g b : T) (dir : Point3 T).
(** (c >> k) & 0xff *)
Definition channel (c k : Z) : Z := Z.land (Z.shiftr c k) 255.
(** RendererLight.cpp:13-15: f * ((c >> k) & 0xff) / 256. *)
Definition factor (f : T) (c k : Z) : res T := ndiv (f * nofZ (channel c k))%num (nofZ 256).
(** RendererLight.cpp:11-16 *)
Definition light_ambient (c : Z) (f : T) : res Light :=
  do r <- factor f c 16; do g <- factor f c 8; do b <- factor f c 0; Ok (LAmbient r g b).
(** RendererLight.cpp:25-31 *)
Definition light_diffuse (c : Z) (f : T) (dir : Point3 T) : res Light :=
  do r <- factor f c 16; do g <- factor f c 8; do b <- factor f c 0; Ok (LDiffuse r g b dir).
(** RendererLight.cpp:18-23 and 33-42 *)
Definition light_apply (l : Light) (red green blue : T) (normal : Point3 T) : T * T * T :=
  match l with
  | LAmbient r g b => (red * r, green * g, blue * b)%num
  | LDiffuse r g b dir =>
      let proj := dot normal dir in
      let proj := if (proj <? n0)%num then n0 else proj in
      (red * (r * proj), green * (g * proj), blue * (b * proj))%num
  end.

(** ** Renderer *)
(** Renderer.h:37-43.  The pixel buffer belongs to the caller, who must provide width * height ints. *)
Record Renderer := mkRd { rd_cam : Camera; rd_lights : list Light; rd_pix : list Z; rd_w : list T; rd_X : Z; rd_Y : Z; rd_bg : Z }.
Definition with_buffers (r : Renderer) (pix : list Z) (w : list T) : Renderer :=
  mkRd (rd_cam r) (rd_lights r) pix w (rd_X r) (rd_Y r) (rd_bg r).

(** Renderer.cpp:14-19 *)
Definition rd_set_camera (r : Renderer) (ox oy oz ahead yaw pitch roll zoom : T) : res Renderer :=
  do c <- cam_set_angles (cam_set_origin (rd_cam r) ox oy oz ahead) yaw pitch roll;
  Ok (mkRd (cam_set_screen c (rd_X r) (rd_Y r) zoom) (rd_lights r) (rd_pix r) (rd_w r) (rd_X r) (rd_Y r) (rd_bg r)).
(** Renderer.cpp:317-329 *)
Definition rd_clear (r : Renderer) : res Renderer :=
  for_ 0 (rd_Y r) (fun j r =>
    for_ 0 (rd_X r) (fun i r =>
      do pix <- vset (rd_pix r) (j * rd_X r + i) (rd_bg r);
      do w <- vset (rd_w r) (j * rd_X r + i) n0;
      Ok (with_buffers r pix w)) r) r.
(** Renderer.cpp:21-31; the new depth buffer is not initialised, but clear() writes before anything is read *)
Definition rd_new (pix : list Z) (xm ym : Z) : res Renderer :=
  do c <- cam_new;
  do n <- iint (xm * ym);
  rd_clear (mkRd c [] pix (repeat n0 (Z.to_nat n)) xm ym 0).
(** Renderer.cpp:330-333 *)
Definition rd_set_background (r : Renderer) (c : Z) : Renderer :=
  mkRd (rd_cam r) (rd_lights r) (rd_pix r) (rd_w r) (rd_X r) (rd_Y r) c.
(** Renderer.cpp:43-51 *)
Definition add_light (r : Renderer) (l : Light) : Renderer :=
  mkRd (rd_cam r) (vpush (rd_lights r) l) (rd_pix r) (rd_w r) (rd_X r) (rd_Y r) (rd_bg r).
Definition rd_add_ambient_light (r : Renderer) (c : Z) (f : T) : res Renderer := do l <- light_ambient c f; Ok (add_light r l).
Definition rd_add_diffuse_light (r : Renderer) (c : Z) (f : T) (dir : Point3 T) : res Renderer := do l <- light_diffuse c f dir; Ok (add_light r l).

(** Renderer.cpp:69-71: (int)(d * 256. + 0.5), at most 255 *)
Definition level (d : T) : res Z := do i <- ntrunc (d * nofZ 256 + nlit 1 2)%num; Ok (if 255 <? i then 255 else i).
(** Renderer.cpp:53-82 *)
Definition compute_color (lights : list Light) (c : Z) (normal : Point3 T) : res Z :=
  do red <- ndiv (nofZ (channel c 16)) (nofZ 256);
  do green <- ndiv (nofZ (channel c 8)) (nofZ 256);
  do blue <- ndiv (nofZ (channel c 0)) (nofZ 256);
  do tot <- for_ 0 (vsize lights) (fun i tot =>
    do l <- vget lights i;
    let '(r, g, b) := light_apply l red green blue normal in
    let '(rt, gt, bt) := tot in
    Ok (rt + r, gt + g, bt + b)%num) (n0, n0, n0);
  let '(rt, gt, bt) := tot in
  do ir <- level rt; do ig <- level gt; do ib <- level bt;
  Ok (Z.shiftl ir 16 + Z.shiftl ig 8 + ib).

(** Linear interpolation written cx * t + (1. - t) * ax *)
Definition mix (c a t : T) : T := (c * t + (n1 - t) * a)%num.
(** assert(t >= 0.); assert(t <= 1.) *)
Definition unit_t (t : T) : res unit := do _ <- massert (n0 <=? t)%num; massert (t <=? n1)%num.

(** Renderer.cpp:309-313: one pixel with its depth test.  [test] is the value compared, [w] the value stored. *)
Definition put (r : Renderer) (k : Z) (test w : T) (color : Z) : res Renderer :=
  do old <- vget (rd_w r) k;
  if (old <? test)%num then
    do ws <- vset (rd_w r) k w;
    do pix <- vset (rd_pix r) k color;
    Ok (with_buffers r pix ws)
  else Ok r.

(** Renderer.cpp:259-315.  [t] is a float: (float)(i-ax) / (bx-ax) divides two floats.  Only bx - ax with a negative ax
    can leave the range of int; y * _Xmax is inside the buffer, whose size is an int. *)
Definition draw_horizontal_line (r : Renderer) (ax : Z) (aw : T) (bx : Z) (bw : T) (y color : Z) : res Renderer :=
  do _ <- massert (ax <=? bx);
  if bx <? 0 then Ok r else
  if rd_X r <=? ax then Ok r else
  if y <? 0 then Ok r else
  if rd_Y r <=? y then Ok r else
  do c <- (if ax <? 0 then
             do len <- iint (bx - ax); do t <- ndiv (nofZ bx) (nofZ len); do _ <- unit_t t; Ok (0, mix bw aw t)
           else Ok (ax, aw));
  let '(ax, aw) := c in
  do c <- (if rd_X r <=? bx then
             do q <- ndiv (nflt (nofZ (bx - (rd_X r - 1)))) (nflt (nofZ (bx - ax)));
             let t := nflt q in do _ <- unit_t t; Ok (rd_X r - 1, mix aw bw t)
           else Ok (bx, bw));
  let '(bx, bw) := c in
  for_ ax (bx + 1) (fun i r =>
    do t <- (if ax =? bx then Ok n1 else do q <- ndiv (nflt (nofZ (i - ax))) (nflt (nofZ (bx - ax))); Ok (nflt q));
    do _ <- unit_t t;
    let w := nflt (bw * t + aw * nflt (n1 - t))%num in
    put r (y * rd_X r + i) w w color) r.

(** Renderer.cpp:196-257.  Only cy - ay with a negative ay can leave the range of int. *)
Definition draw_trapeze (r : Renderer) (ax aw bx bw : T) (ay : Z) (cx cw dx dw : T) (cy color : Z) : res (Renderer * bool) :=
  do _ <- massert (ax <=? bx)%num; do _ <- massert (cx <=? dx)%num; do _ <- massert (ay <=? cy);
  if cy <? 0 then Ok (r, false) else
  if rd_Y r <=? ay then Ok (r, false) else
  do c <- (if ay <? 0 then
             do len <- iint (cy - ay); do t <- ndiv (n0 - nofZ ay)%num (nofZ len); do _ <- unit_t t;
             Ok (0, mix cx ax t, mix cw aw t, mix dx bx t, mix dw bw t)
           else Ok (ay, ax, aw, bx, bw));
  let '(ay, ax, aw, bx, bw) := c in
  do c <- (if rd_Y r <=? cy then
             do t <- ndiv (nofZ (cy - (rd_Y r - 1))) (nofZ (cy - ay)); do _ <- unit_t t;
             Ok (rd_Y r - 1, mix ax cx t, mix aw cw t, mix bx dx t, mix bw dw t)
           else Ok (cy, cx, cw, dx, dw));
  let '(cy, cx, cw, dx, dw) := c in
  do _ <- massert (0 <=? ay); do _ <- massert (ay <=? cy); do _ <- massert (cy <? rd_Y r);
  do _ <- massert (ay <=? cy);
  do r <- for_ ay cy (fun y r =>
    do t <- ndiv (nofZ (y - ay)) (nofZ (cy - ay)); do _ <- unit_t t;
    do p1x <- ntrunc (cx * t + ax * (n1 - t) + nlit 1 2)%num;
    let p1w := (cw * t + aw * (n1 - t))%num in
    do p2x <- ntrunc (dx * t + bx * (n1 - t) + nlit 1 2)%num;
    let p2w := (dw * t + bw * (n1 - t))%num in
    do _ <- massert (p1x <=? p2x);
    draw_horizontal_line r p1x p1w p2x p2w y color) r;
  Ok (r, true).

(** A projected point: screen x, screen y, w. *)
Definition spt : Type := (Z * Z * T)%type.
(** Renderer.cpp:135-158 *)
Definition sort_y (a b c : spt) : spt * spt * spt :=
  let '(ax, ay, aw) := a in let '(bx, by_, bw) := b in let '(cx, cy, cw) := c in
  let '(a, b, c) := if (by_ <=? ay) && (by_ <=? cy) then (b, a, c)
                    else if (cy <=? ay) && (cy <=? by_) then (c, b, a) else (a, b, c) in
  if snd (fst c) <? snd (fst b) then (a, c, b) else (a, b, c).

(** Renderer.cpp:109-194 *)
Definition draw_triangle (r : Renderer) (A B C : Point3 T) (color : Z) (two : bool) : res (Renderer * bool) :=
  do a <- project (rd_cam r) A; do b <- project (rd_cam r) B; do c <- project (rd_cam r) C;
  let '(ax, ay, aw) := a in let '(bx, by_, bw) := b in let '(cx, cy, cw) := c in
  do back <- (if two then Ok false else
    do abx <- iint (ax - bx); do aby <- iint (ay - by_); do acx <- iint (ax - cx); do acy <- iint (ay - cy);
    Ok (pz (cross (mkP (nofZ abx) (nofZ aby) n0) (mkP (nofZ acx) (nofZ acy) n0)) <=? n0)%num);
  if back then Ok (r, false) else
  if (ax <=? 0) && (bx <=? 0) && (cx <=? 0) then Ok (r, false) else
  if (ay <=? 0) && (by_ <=? 0) && (cy <=? 0) then Ok (r, false) else
  if (rd_X r <=? ax) && (rd_X r <=? bx) && (rd_X r <=? cx) then Ok (r, false) else
  if (rd_Y r <=? ay) && (rd_Y r <=? by_) && (rd_Y r <=? cy) then Ok (r, false) else
  let '(a, b, c) := sort_y a b c in
  let '(ax, ay, aw) := a in let '(bx, by_, bw) := b in let '(cx, cy, cw) := c in
  do t <- (if negb (cy =? ay) then do aby <- iint (by_ - ay); do acy <- iint (cy - ay); ndiv (nofZ aby) (nofZ acy) else Ok n0);
  do _ <- unit_t t;
  do dx <- ntrunc (nofZ cx * t + (n1 - t) * nofZ ax + nlit 1 2)%num;
  do dy <- ntrunc (nofZ cy * t + (n1 - t) * nofZ ay + nlit 1 2)%num;
  let dw := mix cw aw t in
  let '(bx, by_, bw, dx, dw) := if dx <? bx then (dx, dy, dw, bx, bw) else (bx, by_, bw, dx, dw) in
  do _ <- massert (bx <=? dx); do _ <- massert (ay <=? by_); do _ <- massert (by_ <=? cy);
  do normal <- tri_normal (mkTri A B C);
  do col <- compute_color (rd_lights r) color normal;
  do r1 <- draw_trapeze r (nofZ ax) aw (nofZ ax) aw ay (nofZ bx) bw (nofZ dx) dw by_ col;
  do r2 <- draw_trapeze (fst r1) (nofZ bx) bw (nofZ dx) dw by_ (nofZ cx) cw (nofZ cx) cw cy col;
  Ok (fst r2, snd r1 || snd r2).

(** Renderer.cpp:335-380 *)
Definition draw_line (r : Renderer) (p1 p2 : Point3 T) (color : Z) : res Renderer :=
  let wEpsilon := nlit 1 100000 in
  do a <- project (rd_cam r) p1; do b <- project (rd_cam r) p2;
  let '(x1, y1, zp1) := a in let '(x2, y2, zp2) := b in
  do dx <- iint (x2 - x1); do dy <- iint (y2 - y1);
  let dx := nofZ dx in let dy := nofZ dy in
  do im <- (if (nabs dy <? nabs dx)%num then ntrunc (nabs dx) else ntrunc (nabs dy));
  if im <? 1 then Ok r else
  do dx <- ndiv dx (nofZ im); do dy <- ndiv dy (nofZ im);
  do dz <- ndiv (zp2 - zp1)%num (nofZ im);
  do s <- for_ 0 im (fun _ (s : Renderer * T * T * T) =>
    let '(r, fx, fy, fz) := s in
    do r <- (if (n0 <=? fx)%num && (fx <? nofZ (rd_X r))%num && (n0 <=? fy)%num && (fy <? nofZ (rd_Y r))%num then
               do ix <- ntrunc fx; do iy <- ntrunc fy;
               put r (ix + iy * rd_X r) (fz + wEpsilon)%num (nflt fz) color
             else Ok r);
    Ok (r, fx + dx, fy + dy, fz + dz)%num) (r, nofZ x1, nofZ y1, zp1);
  Ok (fst (fst (fst s))).

(** Renderer.cpp:382-402 *)
Definition draw_pixel (r : Renderer) (p : Point3 T) (color : Z) : res Renderer :=
  do a <- project (rd_cam r) p;
  let '(ix, iy, zpx) := a in
  if (ix <? 0) || (rd_X r <=? ix) || (iy <? 0) || (rd_Y r <=? iy) then Ok r
  else put r (ix + iy * rd_X r) zpx (nflt zpx) color.

(** Renderer.cpp:404-411 *)
Definition draw_polyline (r : Renderer) (pl : list (Point3 T)) (color : Z) : res Renderer :=
  if vsize pl <? 2 then Ok r else
  for_ 1 (vsize pl) (fun i r => do p <- vget pl (i - 1); do q <- vget pl i; draw_line r p q color) r.

(** Renderer.cpp:84-107 *)
Definition draw_mesh (r : Renderer) (m : Mesh T) (edges : bool) (color : Z) : res Renderer :=
  let col := if color =? -1 then get_color m else color in
  for_ 0 (nb_triangles m) (fun i r =>
    do u <- is_triangle_unlinked m i;
    if u then Ok r else
    do t <- get_triangle m i;
    do d <- draw_triangle r (t1 t) (t2 t) (t3 t) col false;
    let '(r, drawn) := d in
    if edges && drawn then
      do r <- draw_line r (t1 t) (t2 t) 0;
      do r <- draw_line r (t1 t) (t3 t) 0;
      draw_line r (t2 t) (t3 t) 0
    else Ok r) r.

(** ** Face and Solid *)
(** Face.h:23-25 *)
Record Face := mkFace { fmesh : Mesh T; fcolor : Z }.
(** Face.cpp:5-8 (0x808080) *)
Definition face_new : Face := mkFace mesh_new 8421504.
(** Face.cpp:10-14; the mesh is copied by its copy constructor *)
Definition face_copy (f : Face) : res Face := do m <- copy_mesh (fmesh f); Ok (mkFace m (fcolor f)).
(** Face.cpp:16-20 *)
Definition face_of_mesh (m : Mesh T) : res Face := do m <- copy_mesh m; Ok (mkFace m 8421504).
(** Face.cpp:26-29: [return *new Face( *this)].  Result: the object assigned to, and the object the call returns. *)
Definition face_assign (self other : Face) : res (Face * Face) := do n <- face_copy self; Ok (self, n).
(** Face.cpp:31-34 *)
Definition face_set_color (f : Face) (c : Z) : Face := mkFace (fmesh f) c.

(** Solid.h:25-27 *)
Record Solid := mkSolid { smesh : Mesh T; sfaces : list Face }.
(** Solid.cpp:5-7 *)
Definition solid_new : Solid := mkSolid mesh_new [].
(** Solid.cpp:9-12: _faces is default constructed *)
Definition solid_copy (s : Solid) : res Solid := do m <- copy_mesh (smesh s); Ok (mkSolid m []).
(** Solid.cpp:14-17 *)
Definition solid_of_mesh (m : Mesh T) : res Solid := do m <- copy_mesh m; Ok (mkSolid m []).
(** Solid.cpp:23-26 *)
Definition solid_assign (self other : Solid) : res (Solid * Solid) := do n <- solid_copy self; Ok (self, n).
(** Solid.cpp:35-38; push_back copies the face *)
Definition solid_add_face (s : Solid) (f : Face) : res Solid := do f <- face_copy f; Ok (mkSolid (smesh s) (vpush (sfaces s) f)).

End Render.
Arguments Camera T : clear implicits. Arguments Light T : clear implicits. Arguments Renderer T : clear implicits.
Arguments Face T : clear implicits. Arguments Solid T : clear implicits.
