(** Specification vocabulary for line segments on the screen. *)
From Coq Require Import ZArith Reals.
From Verif Require Import Base Num MGeometry MRender.
Open Scope R_scope.

(** The number of pixels from [a] to [b], counted along the longer coordinate. *)
Definition steps (a b : Z * Z) : Z := Z.max (Z.abs (fst b - fst a)) (Z.abs (snd b - snd a)).
(** The fraction [i] / steps of the way. *)
Definition part (a b : Z * Z) (i : Z) : R := IZR i / IZR (steps a b).
(** The point of the segment that is [t] of the way from [a] to [b] lies in the pixel ([x], [y]). *)
Definition on_pixel (a b : Z * Z) (t : R) (x y : Z) : Prop :=
  IZR x <= IZR (fst a) + t * IZR (fst b - fst a) < IZR x + 1 /\ IZR y <= IZR (snd a) + t * IZR (snd b - snd a) < IZR y + 1.
(** Depth, interpolated. *)
Definition mix (u v t : R) : R := u + t * (v - u).
(** Neighbouring pixels (including diagonally). *)
Definition neighbours (x y x' y' : Z) : Prop := (Z.abs (x' - x) <= 1 /\ Z.abs (y' - y) <= 1)%Z.
