(** Property C121: what the Mandelbrot picture shows.  Only statements. *)
From Coq Require Import ZArith List Bool Reals.
From Verif Require Import Base Num MImage SImage SMandel LMandel.
Import ListNotations.
Open Scope Z_scope.

(** The grey level of a pixel is the number of points of the orbit before the first one outside the disc of radius 2. *)
Theorem C121_levels : forall im w h iter, bytes_ok (im_data im) -> 0 <= w -> 0 <= h -> addressable w h 4 -> 0 <= iter <= 255 ->
  exists r, mandelbrot (T := R) im w h iter = Ok r /\ im_w r = w /\ im_h r = h /\
  forall x y, 0 <= x < w -> 0 <= y < h -> exists k, orbit_level iter (mandel_at w h x y) k /\ im_get r x y 0 = Ok k /\ im_get r x y 1 = Ok k /\ im_get r x y 2 = Ok k /\ im_get r x y 3 = Ok 0.
Proof. exact mandelbrot_levels. Qed.
Print Assumptions C121_levels.

(** The picture is symmetric about the real axis, the top row apart. *)
Theorem C121_mirror : forall im w h iter r x y p, bytes_ok (im_data im) -> 0 <= w -> 0 <= h -> addressable w h 4 -> 0 <= iter <= 255 -> mandelbrot (T := R) im w h iter = Ok r ->
  0 <= x < w -> 0 < y < h -> 0 <= p < 4 -> im_get r x y p = im_get r x (h - y) p.
Proof. exact mandelbrot_mirror. Qed.
Print Assumptions C121_mirror.

(** Points of the set do not all get the full level: the orbit of -2 stays in the closed disc for ever, its pixel is black. *)
Theorem C121_set_refuted : forall im iter, bytes_ok (im_data im) -> 0 <= iter <= 255 -> mandel_at 30 2 29 1 = (-2, 0)%R /\
  (forall j, (fst (orbit (-2, 0) j) * fst (orbit (-2, 0) j) + snd (orbit (-2, 0) j) * snd (orbit (-2, 0) j) <= 4)%R) /\
  exists r, mandelbrot (T := R) im 30 2 iter = Ok r /\ im_get r 29 1 0 = Ok 0.
Proof. exact minus_two. Qed.
Print Assumptions C121_set_refuted.

(** An image of 30 x 2 pixels; the orbit of 0 stays, that of 1 leaves after one point. *)
Example C121_case : bytes_ok (im_data (mkImg 0 0 0 [])) /\ addressable 30 2 4 /\ orbit_level 3 (0, 0)%R 3 /\ orbit_level 3 (1, 0)%R 1.
Proof. exact mandel_case. Qed.
