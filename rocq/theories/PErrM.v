(** Property C116: volume, area and orientation of meshes of doubles that have been turned, moved or scaled. *)
From Coq Require Import ZArith List Bool Reals.
From Flocq Require Import Core.
From Verif Require Import Base Num MGeometry MMesh MMeasure MTransform MStl MF64 SMesh SReach SGeom SMeasure SErr SErrN SErrD SErrM LErrEx LErrM.
Import ListNotations.
Open Scope R_scope.

(** Turned by an angle in degrees about any axis, by a matrix or by a quaternion: the measures stay what they were. *)
Theorem C116_turned : forall (TR : Trig f64) (angle : f64) (j : Z) (w : Point3 f64) (m : Mesh f64) (a : AMesh f64) (k : Z),
  good_trig TR -> fits 9 angle -> (j <= 450)%Z -> fits_pt j w -> bpow radix2 (-450) <= len3 (val_pt w) ->
  reach m -> shows m a -> (-190 <= k <= 190)%Z -> Forall (fits_pt k) (averts a) -> (len (live a) <= 2 ^ 50)%Z ->
  let n := IZR (len (live a)) in let e := 12300 * bpow radix2 (k - 53) in let ev := vol_err n (k + 1) e in
  exists ax M Q, normalized w = Ok ax /\ mat_from_angle_axis angle ax = Ok M /\ quat_from_angle_axis angle ax = Ok Q /\ forall F, In F [mat_apply M; quat_apply Q] ->
  exists m' v s, apply_transform m F = Ok m' /\ volume m' = Ok v /\ close_to v (total_vol (val_mesh a)) ev /\ surface m' = Ok s /\ close_to s (total_area (val_mesh a)) (area_err n (k + 1) e) /\
  (ev < total_vol (val_mesh a) -> is_oriented_outside m' = Ok true) /\ (total_vol (val_mesh a) < - ev -> is_oriented_outside m' = Ok false).
Proof. exact turned64. Qed.
Print Assumptions C116_turned.

(** Turned by Euler angles: the area stays, but the volume changes its sign and the mesh is turned inside out (the y axis is mirrored, C40). *)
Theorem C116_euler : forall (TR : Trig f64) (yaw pitch roll : f64) (m : Mesh f64) (a : AMesh f64) (k : Z), good_trig TR -> fits 9 yaw -> fits 9 pitch -> fits 9 roll ->
  reach m -> shows m a -> (-190 <= k <= 190)%Z -> Forall (fits_pt k) (averts a) -> (len (live a) <= 2 ^ 50)%Z ->
  let n := IZR (len (live a)) in let e := 28300 * bpow radix2 (k - 53) in let ev := vol_err n (k + 1) e in
  exists u m' v s, euler_set yaw pitch roll = Ok u /\ apply_transform m (euler_apply u) = Ok m' /\ volume m' = Ok v /\ close_to v (- total_vol (val_mesh a)) ev /\ surface m' = Ok s /\ close_to s (total_area (val_mesh a)) (area_err n (k + 1) e) /\
  (ev < total_vol (val_mesh a) -> is_oriented_outside m' = Ok false) /\ (total_vol (val_mesh a) < - ev -> is_oriented_outside m' = Ok true).
Proof. exact euler_turned64. Qed.
Print Assumptions C116_euler.

(** Closed meshes, translated. *)
Theorem C116_translated : forall (t : Point3 f64) (m : Mesh f64) (a : AMesh f64) (k : Z), reach m -> shows m a -> (-190 <= k <= 190)%Z -> fits_pt k t -> Forall (fits_pt k) (averts a) -> (len (live a) <= 2 ^ 50)%Z ->
  closed_surface (faces (val_mesh a)) -> let n := IZR (len (live a)) in let e := bpow radix2 (k - 53) in let ev := vol_err n (k + 2) e in
  exists m' v s, apply_transform m (translation t) = Ok m' /\ volume m' = Ok v /\ close_to v (total_vol (val_mesh a)) ev /\ surface m' = Ok s /\ close_to s (total_area (val_mesh a)) (area_err n (k + 2) e) /\
  (ev < total_vol (val_mesh a) -> is_oriented_outside m' = Ok true) /\ (total_vol (val_mesh a) < - ev -> is_oriented_outside m' = Ok false).
Proof. exact translated64. Qed.
Print Assumptions C116_translated.

(** Scaled along the axes: the volume is multiplied by the product of the factors, the area by the square of a common factor. *)
Theorem C116_scaled : forall (sx sy sz : f64) (m : Mesh f64) (a : AMesh f64) (k j : Z), reach m -> shows m a -> (-400 <= k <= 400)%Z -> (-400 <= j <= 400)%Z -> (-190 <= k + j <= 190)%Z ->
  fits j sx -> fits j sy -> fits j sz -> Forall (fits_pt k) (averts a) -> (len (live a) <= 2 ^ 50)%Z ->
  let n := IZR (len (live a)) in let e := bpow radix2 (k + j - 54) in let ev := vol_err n (k + j + 1) e in let V := val sx * val sy * val sz * total_vol (val_mesh a) in
  exists m' v s, apply_transform m (scale sx sy sz) = Ok m' /\ volume m' = Ok v /\ close_to v V ev /\ surface m' = Ok s /\
  (val sx = val sy -> val sy = val sz -> close_to s (val sx * val sx * total_area (val_mesh a)) (area_err n (k + j + 1) e)) /\
  (ev < V -> is_oriented_outside m' = Ok true) /\ (V < - ev -> is_oriented_outside m' = Ok false).
Proof. exact scaled64. Qed.
Print Assumptions C116_scaled.

(** A tetrahedron on the axes with edges of length 1, 90 degrees about (1, -2, 3); the largest of the bounds is below its volume. *)
Example C116_case : let m := corner_mesh 0 1 true in let a := corner_abs 0 1 true in
  good_trig correct_trig /\ fits 9 (f64_ofZ 90) /\ fits_pt 2 (dp 1 (-2) 3) /\ bpow radix2 (-450) <= len3 (val_pt (dp 1 (-2) 3)) /\
  reach m /\ shows m a /\ Forall (fits_pt 0) (averts a) /\ len (live a) = 4%Z /\ closed_surface (faces (val_mesh a)) /\ total_vol (val_mesh a) = 1 / 6 /\
  vol_err 4 (0 + 1) (28300 * bpow radix2 (0 - 53)) < 1 / 6.
Proof. exact moved_case. Qed.
