(** Specification: the axes of the image of a camera. *)
From Coq Require Import ZArith List Bool Reals.
From Verif Require Import Base Num MGeometry SGeom SRender.
Open Scope R_scope.

(** Yaw turns the horizontal axis, pitch the vertical one, roll turns both in the image; the vertical axis points down. *)
Definition level_right (yaw : R) : pt3 := let a := yaw * degree in mkP (cos a) 0 (sin a).
Definition level_down (yaw pitch : R) : pt3 := let a := yaw * degree in let b := pitch * degree in mkP (- sin a * sin b) (- cos b) (cos a * sin b).
Definition mix (s t : R) (u v : pt3) : pt3 := mkP (s * px u + t * px v) (s * py u + t * py v) (s * pz u + t * pz v).
Definition right (yaw pitch roll : R) : pt3 := let c := roll * degree in mix (cos c) (sin c) (level_right yaw) (level_down yaw pitch).
Definition down (yaw pitch roll : R) : pt3 := let c := roll * degree in mix (cos c) (- sin c) (level_down yaw pitch) (level_right yaw).

(** [z] is the nearest whole number (the larger one of two). *)
Definition nearest_int (x : R) (z : Z) : Prop := IZR z - 1 / 2 <= x < IZR z + 1 / 2.
