(** Specification vocabulary for the renderer. *)
From Coq Require Import ZArith List Bool Reals.
From Verif Require Import Base Num MGeometry MKernel MMesh MTransform MRender SMesh SReach SGeom SMeasure.
Import ListNotations.
Open Scope Z_scope.

(** An arithmetic whose operations do not access memory, and whose truncation keeps [0, k) inside. *)
Definition sane (T : Type) {N : Num T} : Prop :=
  (forall x y : T, ndiv x y <> Err FOob) /\ (forall x : T, nsqrt x <> Err FOob) /\ (forall x : T, ntrunc x <> Err FOob) /\
  (forall (x : T) (k z : Z), 0 <= k <= int_max -> (n0 <=? x)%num = true -> (x <? nofZ k)%num = true -> ntrunc x = Ok z -> 0 <= z < k).
(** An arithmetic whose order is that of numbers, except for values not equal to themselves. *)
Definition ordered (T : Type) {N : Num T} : Prop :=
  (forall x : T, (x <? x)%num = false) /\
  (forall x y z : T, (x <? y)%num = true -> (y <? z)%num = true -> (x <? z)%num = true) /\
  (forall x y : T, (x <? y)%num = true -> (x =? x)%num = true /\ (y =? y)%num = true) /\
  (forall x y z : T, (x <? y)%num = true -> (z =? z)%num = true -> (x <? z)%num = true \/ (z <? y)%num = true) /\
  (n0 =? n0)%num = true.

Section SRender.
Context {T : Type} {N : Num T} {TR : Trig T} {FL : Flt T}.

(** Calls of a client. *)
Inductive rop :=
| RClear | RBackground (c : Z) | RCamera (ox oy oz ahead yaw pitch roll zoom : T)
| RAmbient (c : Z) (f : T) | RDiffuse (c : Z) (f : T) (dir : Point3 T)
| RTriangle (A B C : Point3 T) (c : Z) (two : bool) | RLine (p q : Point3 T) (c : Z) | RPixel (p : Point3 T) (c : Z)
| RPolyline (pl : list (Point3 T)) (c : Z) | RMesh (m : Mesh T) (edges : bool) (c : Z).
Definition rstep (r : Renderer T) (o : rop) : res (Renderer T) :=
  match o with
  | RClear => rd_clear r
  | RBackground c => Ok (rd_set_background r c)
  | RCamera ox oy oz ahead yaw pitch roll zoom => rd_set_camera r ox oy oz ahead yaw pitch roll zoom
  | RAmbient c f => rd_add_ambient_light r c f
  | RDiffuse c f dir => rd_add_diffuse_light r c f dir
  | RTriangle A B C c two => do x <- draw_triangle r A B C c two; Ok (fst x)
  | RLine p q c => draw_line r p q c
  | RPixel p c => draw_pixel r p c
  | RPolyline pl c => draw_polyline r pl c
  | RMesh m edges c => draw_mesh r m edges c
  end.
Fixpoint rrun (r : Renderer T) (os : list rop) : res (Renderer T) :=
  match os with [] => Ok r | o :: os => do r <- rstep r o; rrun r os end.
(** The meshes handed over are meshes. *)
Definition proper (o : rop) : Prop := match o with RMesh m _ _ => reach m | _ => True end.
(** Both buffers have the size of the image. *)
Definition framed (r : Renderer T) (X Y : Z) : Prop :=
  rd_X r = X /\ rd_Y r = Y /\ vsize (rd_pix r) = X * Y /\ vsize (rd_w r) = X * Y.
(** Everything but the buffers. *)
Definition settings (r : Renderer T) : Camera T * list (Light T) * Z * Z * Z := (rd_cam r, rd_lights r, rd_X r, rd_Y r, rd_bg r).
(** Pixel number [k]: depth and colour. *)
Definition pixel (r : Renderer T) (k : Z) : T * Z := (nth (Z.to_nat k) (rd_w r) n0, nth (Z.to_nat k) (rd_pix r) 0).
Definition depth r k := fst (pixel r k).
Definition colour r k := snd (pixel r k).
(** The nearer of two pixels (the greater 1/z), the first one in case of a tie. *)
Definition nearer (p q : T * Z) : T * Z := if (fst p <? fst q)%num then q else p.
Definition nearest (p : T * Z) (qs : list (T * Z)) : T * Z := fold_left nearer qs p.
(** Single precision rounding does not take a value below a single precision value it exceeds. *)
Definition rounds : Prop :=
  nflt n0 = n0 /\ (forall x : T, nflt (nflt x) = nflt x) /\ (forall x : T, (x =? x)%num = true -> (nflt x =? nflt x)%num = true) /\
  (forall x y : T, nflt x = x -> (x <? y)%num = true -> (nflt y <? x)%num = false).
(** Every depth is a float, and not a NaN. *)
Definition clean (r : Renderer T) : Prop := forall k, 0 <= k < rd_X r * rd_Y r -> nflt (depth r k) = depth r k /\ (depth r k =? depth r k)%num = true.
(** Filled shapes: what the claim on drawing order is about. *)
Definition filled (o : rop) : Prop := match o with RTriangle _ _ _ _ _ => True | RMesh _ edges _ => edges = false | _ => False end.
Definition no_line (o : rop) : Prop := match o with RTriangle _ _ _ _ _ => True | RMesh _ edges _ => edges = false | RPixel _ _ => True | _ => False end.
End SRender.
Arguments rop T : clear implicits.
Arguments rounds T {N FL}.

(** Depth of a point for the camera, over the reals. *)
Definition cam_depth (c : Camera R) (p : pt3) : R := pz (local_ref c p).
(** Red, green, blue in one int. *)
Definition rgb (r g b : Z) : Z := 65536 * r + 256 * g + b.
(** The light that one source adds on one channel (16 red, 8 green, 0 blue), per unit of the object's colour. *)
Definition light_on (l : Light R) (k : Z) (n : pt3) : R :=
  let pick (r g b : R) := if k =? 16 then r else if k =? 8 then g else b in
  match l with
  | LAmbient r g b => pick r g b
  | LDiffuse r g b dir => pick r g b * Rmax 0 (dot3 n dir)
  end.
(** Byte [k] of a colour, as an integer. *)
Definition byte (c k : Z) : Z := (c / 2 ^ k) mod 256.
Definition shade (ls : list (Light R)) (c : Z) (n : pt3) (k : Z) : R :=
  fold_right (fun l s => IZR (byte c k) / 256 * light_on l k n + s)%R 0%R ls.
(** Rounding to one of 256 levels. *)
Definition shown (d : R) : Z := Z.min 255 (Int_part (256 * d + 1 / 2)).
Definition bright (l : Light R) : Prop :=
  match l with LAmbient r g b => (0 <= r /\ 0 <= g /\ 0 <= b)%R | LDiffuse r g b _ => (0 <= r /\ 0 <= g /\ 0 <= b)%R end.
(** A degree, with the value the library gives to pi. *)
Definition degree : R := (2 * (314159265359 / 100000000000) / 360)%R.
(** A direction of sight. *)
Definition sight (yaw pitch : R) : pt3 :=
  let a := (yaw * degree)%R in let b := (pitch * degree)%R in
  mkP (- sin a * cos b)%R (sin b) (cos a * cos b)%R.
Definition along (o u : pt3) (t : R) : pt3 := mkP (px o + t * px u)%R (py o + t * py u)%R (pz o + t * pz u)%R.
