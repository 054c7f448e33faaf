(** C97: line segments on the screen. *)
From Coq Require Import ZArith List Bool Reals.
From Verif Require Import Base Num MF64 MGeometry MRender SGeom SRender SRaster SLine LRender6 LRaster4 LLine LLine2.
Import ListNotations.
Open Scope Z_scope.

(** Every pixel after draw_line: the pixels that hold the points 0, 1/m, 2/m, ... (m - 1)/m of the way get the colour and the
    interpolated depth, unless they show something nearer (by more than 1e-5); the others are left alone.  [FL] is any rounding
    of depths to float. *)
Theorem C97_line_pixels : forall (FL : Flt R) (X Y : Z), 0 <= X <= int_max -> 0 <= Y <= int_max ->
  forall (r : Renderer R) (p q : pt3) (color : Z) (a b : Z * Z) (za zb : R), framed r X Y ->
  project (rd_cam r) p = Ok (fst a, snd a, za) -> project (rd_cam r) q = Ok (fst b, snd b, zb) -> steps a b <= int_max ->
  exists r', draw_line r p q color = Ok r' /\ framed r' X Y /\ settings r' = settings r /\
    forall x y, 0 <= x < X -> 0 <= y < Y -> let k := y * X + x in
      (forall i, 0 <= i < steps a b -> on_pixel a b (part a b i) x y ->
         pixel r' k = if Rltb (depth r k) (mix za zb (part a b i) + 1 / 100000) then (nflt (mix za zb (part a b i)), color) else pixel r k) /\
      ((forall i, 0 <= i < steps a b -> ~ on_pixel a b (part a b i) x y) -> pixel r' k = pixel r k).
Proof. exact (@line_exact). Qed.
Print Assumptions C97_line_pixels.
(** These pixels are a chain from the first point to the last, without gaps and without repetition. *)
Theorem C97_chain : forall a b : Z * Z, 1 <= steps a b -> exists f : Z -> Z * Z, f 0 = a /\ f (steps a b) = b /\
  (forall i, 0 <= i <= steps a b -> on_pixel a b (part a b i) (fst (f i)) (snd (f i))) /\
  (forall i, 0 <= i < steps a b -> neighbours (fst (f i)) (snd (f i)) (fst (f (i + 1))) (snd (f (i + 1)))) /\ forall i j, f i = f j -> i = j.
Proof. exact chain. Qed.
Print Assumptions C97_chain.
Example C97_case : exists r : Renderer R, framed r 8 8 /\ project (rd_cam r) (mkP (-4) 4 1)%R = Ok (0, 0, 1%R) /\ project (rd_cam r) (mkP 3 4 1)%R = Ok (7, 0, 1%R) /\
  steps (0, 0) (7, 0) = 7 /\ depth r 3 = 0%R /\ on_pixel (0, 0) (7, 0) (part (0, 0) (7, 0) 3) 3 0.
Proof. exact line_case. Qed.
(** The pixel of the second point is never painted. *)
Theorem C97_end_point_refuted : forall (FL : Flt R) (X Y : Z) (r r' : Renderer R) (p q : pt3) (color : Z) (a b : Z * Z) (za zb : R), 0 <= X <= int_max -> 0 <= Y <= int_max -> framed r X Y ->
  project (rd_cam r) p = Ok (fst a, snd a, za) -> project (rd_cam r) q = Ok (fst b, snd b, zb) -> steps a b <= int_max -> draw_line r p q color = Ok r' ->
  0 <= fst b < X -> 0 <= snd b < Y -> pixel r' (snd b * X + fst b) = pixel r (snd b * X + fst b).
Proof. exact (@end_skipped). Qed.
Print Assumptions C97_end_point_refuted.
(** A segment seen as one pixel is not drawn at all. *)
Theorem C97_one_pixel_refuted : forall (FL : Flt R) (r : Renderer R) (p q : pt3) (color x y : Z) (za zb : R), project (rd_cam r) p = Ok (x, y, za) -> project (rd_cam r) q = Ok (x, y, zb) ->
  draw_line r p q color = Ok r.
Proof. exact (@dot_skipped). Qed.
Print Assumptions C97_one_pixel_refuted.
(** In doubles the steps drift: half way from (0, 0) to (20, 2) the segment is exactly at (10, 1), but (10, 0) is painted. *)
Theorem C97_drift_refuted : place 32 4 [] (P64 (-16) 2 1) = Some (0, 0) /\ place 32 4 [] (P64 4 0 1) = Some (20, 2) /\ on_pixel (0, 0) (20, 2) (part (0, 0) (20, 2) 10) 10 1 /\
  seen 32 4 [gentle] 10 1 = seen 32 4 [] 10 1 /\ seen 32 4 [gentle] 10 0 = Ok 255 /\ seen 32 4 [] 10 0 <> Ok 255 /\ (forall i, ~ on_pixel (0, 0) (20, 2) (part (0, 0) (20, 2) i) 10 0).
Proof. exact drift. Qed.
Print Assumptions C97_drift_refuted.
