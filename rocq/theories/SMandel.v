(** The orbit of the Mandelbrot set, over the complex numbers as pairs. *)
From Coq Require Import ZArith Reals.
Open Scope R_scope.

(** z * z + c *)
Definition square_plus (c z : R * R) : R * R := (fst z * fst z - snd z * snd z + fst c, 2 * (fst z * snd z) + snd c).
(** c, c * c + c, ... *)
Fixpoint orbit (c : R * R) (j : nat) : R * R := match j with O => c | S i => square_plus c (orbit c i) end.
Definition in_disc (z : R * R) : Prop := fst z * fst z + snd z * snd z < 2 * 2.
(** How many points of the orbit come before the first one outside the disc of radius 2, at most [n]. *)
Definition orbit_level (n : Z) (c : R * R) (k : Z) : Prop :=
  (0 <= k <= n)%Z /\ (forall j, (Z.of_nat j < k)%Z -> in_disc (orbit c j)) /\ ((k < n)%Z -> ~ in_disc (orbit c (Z.to_nat k))).
(** The complex number at the upper left corner of a pixel: the real axis points to the left, the imaginary one upwards. *)
Definition mandel_at (w h x y : Z) : R * R := (9 / 10 - 3 * (IZR x / IZR w), 3 / 2 - 3 * (IZR y / IZR h)).
