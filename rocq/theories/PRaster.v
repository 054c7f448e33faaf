(** Theorems C93-C95: filled triangles, culling, meshes and polylines on the screen.  Each proof is a lemma of LRaster3.v or LRaster4.v. *)
From Coq Require Import ZArith List Bool Reals.
From Verif Require Import Base Num MF64 MGeometry MKernel MMesh MTransform MRender SMesh SReach SGeom SRender SRaster LMeasureEx LRender6 LRaster3 LRaster4.
Import ListNotations.
Open Scope Z_scope.

(** ** C93: a filled triangle covers its pixels, in its colour, at its depth *)
#[local] Existing Instance exact_flt.
(** Corners at non-negative screen coordinates; one pixel of tolerance to the left and to the right; not the last row of the window. *)
Theorem C93_filled_triangle_partial : forall (X Y : Z) (r : Renderer R) (A B C : pt3) (color : Z) (two : bool) (a b c : Z * Z * R) (n : pt3) (col : Z), 1 <= X -> 1 <= Y -> framed r X Y ->
  project (rd_cam r) A = Ok a -> project (rd_cam r) B = Ok b -> project (rd_cam r) C = Ok c ->
  (two = true \/ 0 < turn (fst a) (fst b) (fst c)) -> ~ outside X Y (fst a) (fst b) (fst c) -> spans_int (fst a) (fst b) (fst c) ->
  tri_normal (mkTri A B C) = Ok n -> compute_color (rd_lights r) color n = Ok col ->
  exists s, draw_triangle r A B C color two = Ok (s, true) /\ forall x y, 0 <= x < X -> 0 <= y < Y ->
    let k := y * X + x in let lo := low3 (snd a) (snd b) (snd c) in let hi := high3 (snd a) (snd b) (snd c) in
    let at_row := top3 (snd (fst a)) (snd (fst b)) (snd (fst c)) <= y < bottom3 (snd (fst a)) (snd (fst b)) (snd (fst c)) /\ y < Y - 1 in
    let shows_it := colour s k = col /\ (lo <= depth s k <= hi)%R /\ (depth r k < depth s k)%R in
    (pixel s k = pixel r k \/ shows_it) /\
    (0 <= top3 (fst (fst a)) (fst (fst b)) (fst (fst c)) -> 0 <= top3 (snd (fst a)) (snd (fst b)) (snd (fst c)) ->
      (pixel s k = pixel r k \/ at_row /\ exists u, (Rabs (u - IZR x) <= 1)%R /\ in_tri2 (fst a) (fst b) (fst c) u (IZR y)) /\
      (at_row -> (forall u, (Rabs (u - IZR x) <= 1)%R -> in_tri2 (fst a) (fst b) (fst c) u (IZR y)) -> (depth r k < lo)%R -> shows_it)).
Proof. exact filled_triangle. Qed.
Print Assumptions C93_filled_triangle_partial.
(** The last row of the window is never painted by filled shapes, whatever is drawn, in any arithmetic. *)
Theorem C93_last_row_refuted : forall (T : Type) (N : Num T) (TR : Trig T) (FL : Flt T) (X Y : Z) (r r' : Renderer T) (os : list (rop T)), 0 <= X -> framed r X Y ->
  Forall filled os -> rrun r os = Ok r' -> forall x, 0 <= x < X -> pixel r' ((Y - 1) * X + x) = pixel r ((Y - 1) * X + x).
Proof. exact (@last_row). Qed.
Print Assumptions C93_last_row_refuted.
(** Left border, in doubles: [slope] goes from 1/w = 3 five pixels left of the window to 1/w = 12 at column 3, [wall] is at 1/w = 5.  At column 0 of
    the middle row [slope] is behind [wall] (the wider window shows [wall] there), yet the window of four columns shows [slope]. *)
Theorem C93_left_border_refuted : place 4 4 [] (P64 (-24) 0 3) = Some (-5, 2) /\ place 4 4 [] (P64 12 24 12) = Some (3, 0) /\ place 4 4 [] (P64 12 (-24) 12) = Some (3, 4) /\
  seen 4 4 [slope; wall] 0 2 = Ok 254 /\ seen 4 4 [slope] 0 2 = Ok 254 /\ seen 16 4 [slope; wall] 6 2 = Ok 65024 /\ seen 16 4 [slope] 6 2 = Ok 254.
Proof. exact left_border. Qed.
Print Assumptions C93_left_border_refuted.
(** A middle corner above the window, in doubles: column 3 of row 0 is painted although the triangle ends at column 1/2 there. *)
Theorem C93_above_border_refuted : place 4 4 [] (P64 (-6) 5 1) = Some (-3, -2) /\ place 4 4 [] (P64 10 4 1) = Some (12, -1) /\ place 4 4 [] (P64 (-14) 1 1) = Some (-11, 1) /\
  seen 4 4 [] 3 0 = Ok 7 /\ seen 4 4 [fin] 3 0 = Ok 254 /\ (forall u, in_tri2 (-3, -2) (12, -1) (-11, 1) u 0 -> (u <= 1 / 2)%R).
Proof. exact above_border. Qed.
Print Assumptions C93_above_border_refuted.
Example C93_case : exists r : Renderer R, framed r 8 8 /\ blank r /\
  project (rd_cam r) (mkP (-4) 4 1)%R = Ok (0, 0, 1%R) /\ project (rd_cam r) (mkP 3 4 1)%R = Ok (7, 0, 1%R) /\ project (rd_cam r) (mkP (-4) (-3) 1)%R = Ok (0, 7, 1%R) /\
  0 < turn (0, 0) (7, 0) (0, 7) /\ ~ outside 8 8 (0, 0) (7, 0) (0, 7) /\
  (exists n, tri_normal (mkTri (mkP (-4) 4 1) (mkP 3 4 1) (mkP (-4) (-3) 1))%R = Ok n /\ compute_color (rd_lights r) 255 n = Ok 0) /\
  (forall u, (Rabs (u - 2) <= 1)%R -> in_tri2 (0, 0) (7, 0) (0, 7) u 2).
Proof. exact flat_case. Qed.
Example C93_case_spans : spans_int (0, 0) (7, 0) (0, 7) /\ sides_int (0, 0) (0, 7) (7, 0).
Proof. unfold spans_int, sides_int, top3, bottom3, int_min, int_max. cbn. repeat split; discriminate. Qed.

(** ** C94: back faces and triangles outside the window leave the picture alone *)
(** [sides_int]: the differences of coordinates that the test computes are ints. *)
Theorem C94_culled : forall (r : Renderer R) (A B C : pt3) (color : Z) (two : bool) (a b c : Z * Z * R),
  project (rd_cam r) A = Ok a -> project (rd_cam r) B = Ok b -> project (rd_cam r) C = Ok c ->
  two = true \/ sides_int (fst a) (fst b) (fst c) ->
  two = false /\ turn (fst a) (fst b) (fst c) <= 0 \/ outside (rd_X r) (rd_Y r) (fst a) (fst b) (fst c) -> draw_triangle r A B C color two = Ok (r, false).
Proof. exact culled. Qed.
Print Assumptions C94_culled.
(** Otherwise computing these differences overflows (undefined in C++), in any arithmetic: also for triangles outside the window or seen from behind. *)
Theorem C94_far_corners_refuted : forall (T : Type) (N : Num T) (TR : Trig T) (FL : Flt T) (r : Renderer T) (A B C : Point3 T) (color : Z) (a b c : Z * Z * T),
  project (rd_cam r) A = Ok a -> project (rd_cam r) B = Ok b -> project (rd_cam r) C = Ok c -> ~ sides_int (fst a) (fst b) (fst c) ->
  draw_triangle r A B C color false = Err FOverflow.
Proof. exact (@sides_overflow). Qed.
Print Assumptions C94_far_corners_refuted.
Theorem C94_far_line_refuted : forall (T : Type) (N : Num T) (TR : Trig T) (FL : Flt T) (r : Renderer T) (p q : Point3 T) (color : Z) (a b : Z * Z * T),
  project (rd_cam r) p = Ok a -> project (rd_cam r) q = Ok b ->
  ~ (int_min <= fst (fst b) - fst (fst a) <= int_max /\ int_min <= snd (fst b) - snd (fst a) <= int_max) -> draw_line r p q color = Err FOverflow.
Proof. exact (@line_overflow). Qed.
Print Assumptions C94_far_line_refuted.
Example C94_case_far : exists r : Renderer R, framed r 8 8 /\
  project (rd_cam r) (mkP (-1500000000) 1 1)%R = Ok (-1499999995, 3, 1%R) /\ project (rd_cam r) (mkP 1500000000 1 1)%R = Ok (1500000004, 3, 1%R) /\ project (rd_cam r) (mkP 0 (-2) 1)%R = Ok (4, 6, 1%R) /\
  draw_triangle r (mkP (-1500000000) 1 1)%R (mkP 1500000000 1 1)%R (mkP 0 (-2) 1)%R 255 false = Err FOverflow /\ draw_line r (mkP (-1500000000) 1 1)%R (mkP 1500000000 1 1)%R 255 = Err FOverflow.
Proof. exact wide_case. Qed.
(** A triangle not skipped is drawn: [C93_filled_triangle_partial] gives the result true and the pixels; here, the result alone. *)
Theorem C94_drawn : forall (X Y : Z) (r : Renderer R) (A B C : pt3) (color : Z) (two : bool) (a b c : Z * Z * R) (n : pt3) (col : Z), 1 <= X -> 1 <= Y -> framed r X Y ->
  project (rd_cam r) A = Ok a -> project (rd_cam r) B = Ok b -> project (rd_cam r) C = Ok c ->
  (two = true \/ 0 < turn (fst a) (fst b) (fst c)) -> ~ outside X Y (fst a) (fst b) (fst c) -> spans_int (fst a) (fst b) (fst c) ->
  tri_normal (mkTri A B C) = Ok n -> compute_color (rd_lights r) color n = Ok col -> exists s, draw_triangle r A B C color two = Ok (s, true) /\ settings s = settings r.
Proof. exact drawn. Qed.
Print Assumptions C94_drawn.
Example C94_case : exists r : Renderer R, project (rd_cam r) (mkP (-4) 4 1)%R = Ok (0, 0, 1%R) /\ project (rd_cam r) (mkP 3 4 1)%R = Ok (7, 0, 1%R) /\ project (rd_cam r) (mkP (-4) (-3) 1)%R = Ok (0, 7, 1%R) /\
  turn (0, 0) (0, 7) (7, 0) <= 0 /\ ~ outside 8 8 (0, 0) (7, 0) (0, 7) /\ outside 8 8 (0, 9) (4, 8) (7, 12) /\
  draw_triangle r (mkP (-4) 4 1)%R (mkP (-4) (-3) 1)%R (mkP 3 4 1)%R 255 false = Ok (r, false).
Proof. exact back_case. Qed.

(** ** C95: drawing a mesh draws its faces, drawing a polyline draws its segments *)
Theorem C95_mesh : forall (T : Type) (N : Num T) (TR : Trig T) (FL : Flt T) (m : Mesh T) (a : AMesh T) (r : Renderer T) (edges : bool) (c : Z), reach m -> shows m a ->
  draw_mesh r m edges c = painted r (if c =? -1 then acolor a else c) edges (corners_of a).
Proof. exact (@mesh_painted). Qed.
Print Assumptions C95_mesh.
Theorem C95_mesh_without_edges : forall (T : Type) (N : Num T) (TR : Trig T) (FL : Flt T) (m : Mesh T) (a : AMesh T) (r : Renderer T) (c : Z), reach m -> shows m a ->
  draw_mesh r m false c = rrun r (map (fun f => let '(p, q, s) := f in RTriangle p q s (if c =? -1 then acolor a else c) false) (corners_of a)).
Proof. exact (@mesh_plain). Qed.
Print Assumptions C95_mesh_without_edges.
Theorem C95_polyline : forall (T : Type) (N : Num T) (TR : Trig T) (FL : Flt T) (pl : list (Point3 T)) (r : Renderer T) (c : Z),
  draw_polyline r pl c = rrun r (map (fun g => RLine (fst g) (snd g) c) (sides pl)).
Proof. exact (@polyline_lines). Qed.
Print Assumptions C95_polyline.
(** A tetrahedron: four faces, of which the screen shows those turned to the camera. *)
Example C95_case : (exists m : Mesh R, reach m /\ shows m tetra_abs) /\ length (corners_of tetra_abs) = 4%nat /\ sides [1; 2; 3] = [(1, 2); (2, 3)].
Proof. exact mesh_case. Qed.
