(** Specification: pixels of a camera that calculates in doubles. *)
From Coq Require Import ZArith Reals.
From Flocq Require Import Core.
From Verif Require Import Base Num MGeometry SGeom SRender SCamera MStl MF64 SErr.
Open Scope R_scope.

(** Within half a pixel of the exact place, and a five hundred and twelfth more; left of and above the image, where numbers are truncated, within one and a half. *)
Definition near_pixel (x : R) (z : Z) : Prop := (- (1 / 2) <= x -> Rabs (IZR z - x) <= 1 / 2 + 1 / 512) /\ Rabs (IZR z - x) < 3 / 2 + 1 / 512.
(** What is seen by a camera at [o], moved back by [ahead] and turned by three angles in degrees: depth, and offsets to the right and down in multiples of the depth. *)
Record view := mkView { v_at : pt3; v_ahead : R; v_yaw : R; v_pitch : R; v_roll : R }.
Definition depth (v : view) (p : pt3) : R := dot3 (sub3 p (v_at v)) (sight (v_yaw v) (v_pitch v)) + v_ahead v.
Definition shown_x (v : view) (p : pt3) : R := dot3 (sub3 p (v_at v)) (right (v_yaw v) (v_pitch v) (v_roll v)) / depth v p.
Definition shown_y (v : view) (p : pt3) : R := dot3 (sub3 p (v_at v)) (down (v_yaw v) (v_pitch v) (v_roll v)) / depth v p.
(** The point is not too near to the plane of the eye and is shown, with a zoom, less than 65536 pixels away from the first pixel of an image whose centre is [cx], [cy]. *)
Definition in_view (k : Z) (v : view) (zoom : R) (cx cy : Z) (p : pt3) : Prop :=
  bpow radix2 (k - 16) <= Rabs (depth v p) /\ Rabs (IZR cx + zoom * shown_x v p) <= 65536 /\ Rabs (IZR cy + zoom * shown_y v p) <= 65536.
