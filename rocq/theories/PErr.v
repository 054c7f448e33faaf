(** Properties C105 and C106: how far the doubles computed by the library are from the exact geometry. *)
From Coq Require Import ZArith List Bool Reals.
From Flocq Require Import Core.
From Verif Require Import Base Num MGeometry MKernel MMesh MMeshRun MMeasure MStl MF64 SMesh SReach SGeom SMeasure SErr
  LErr4 LErr5 LErr6 LErrEx.
Import ListNotations.
Open Scope R_scope.

(** C105. Volume and area of every mesh of finite doubles of magnitude at most 2^k: finite, and within an explicit
    bound of the volume and area of the exact surface; n is the number of triangles. *)
Theorem C105_volume_error : forall (m : Mesh f64) (a : AMesh f64) (k : Z), reach m -> shows m a -> (-200 <= k <= 200)%Z ->
  Forall (fits_pt k) (averts a) -> (len (live a) <= 2 ^ 50)%Z ->
  let n := IZR (len (live a)) in
  exists v, volume m = Ok v /\ close_to v (total_vol (val_mesh a)) (3 * n * (n + 8) * bpow radix2 (3 * k - 53)).
Proof. exact reach_volume_err. Qed.
Print Assumptions C105_volume_error.

Theorem C105_surface_error : forall (m : Mesh f64) (a : AMesh f64) (k : Z), reach m -> shows m a -> (-200 <= k <= 200)%Z ->
  Forall (fits_pt k) (averts a) -> (len (live a) <= 2 ^ 50)%Z ->
  let n := IZR (len (live a)) in
  exists v, surface m = Ok v /\ close_to v (total_area (val_mesh a)) (n * (4 * n + 70) * bpow radix2 (2 * k - 53)).
Proof. exact reach_surface_err. Qed.
Print Assumptions C105_surface_error.

(** The orientation test is right as soon as the exact volume is not within the error bound of zero ... *)
Theorem C105_orientation : forall (m : Mesh f64) (a : AMesh f64) (k : Z), reach m -> shows m a -> (-200 <= k <= 200)%Z ->
  Forall (fits_pt k) (averts a) -> (len (live a) <= 2 ^ 50)%Z ->
  let n := IZR (len (live a)) in let e := 3 * n * (n + 8) * bpow radix2 (3 * k - 53) in
  (e < total_vol (val_mesh a) -> is_oriented_outside m = Ok true) /\ (total_vol (val_mesh a) < - e -> is_oriented_outside m = Ok false).
Proof. exact reach_oriented_err. Qed.
Print Assumptions C105_orientation.

(** ... and wrong for some mesh within it: a unit tetrahedron turned inside out, far from the origin. *)
Theorem C105_orientation_far_wrong : exists (m : Mesh f64) a, reach m /\ shows m a /\ Forall (fits_pt 53) (averts a) /\
  total_vol (val_mesh a) = - (1 / 6) /\ is_oriented_outside m = Ok true.
Proof. exact far_refuted. Qed.
Print Assumptions C105_orientation_far_wrong.

Example C105_case : reach (corner_mesh 0 1 true) /\ shows (corner_mesh 0 1 true) (corner_abs 0 1 true) /\ Forall (fits_pt 0) (averts (corner_abs 0 1 true)) /\
  len (live (corner_abs 0 1 true)) = 4%Z /\ total_vol (val_mesh (corner_abs 0 1 true)) = 1 / 6 /\ 3 * 4 * (4 + 8) * bpow radix2 (3 * 0 - 53) < 1 / 6 /\
  is_oriented_outside (corner_mesh 0 1 true) = Ok true.
Proof. exact near_case. Qed.

(** C106. Products of vectors. *)
Theorem C106_dot_error : forall (k : Z), (-480 <= k <= 480)%Z -> forall p q : Point3 f64, fits_pt k p -> fits_pt k q ->
  close_to (dot p q) (dot3 (val_pt p) (val_pt q)) (5 * bpow radix2 (2 * k - 53)).
Proof. exact dot_err. Qed.
Print Assumptions C106_dot_error.

Theorem C106_cross_error : forall (k : Z), (-480 <= k <= 480)%Z -> forall p q : Point3 f64, fits_pt k p -> fits_pt k q ->
  let e := 2 * bpow radix2 (2 * k - 53) in let c := cross3 (val_pt p) (val_pt q) in
  close_to (px (cross p q)) (px c) e /\ close_to (py (cross p q)) (py c) e /\ close_to (pz (cross p q)) (pz c) e.
Proof. exact cross_err. Qed.
Print Assumptions C106_cross_error.

(** Lengths. *)
Theorem C106_norm_error : forall (k : Z) (p : Point3 f64), (k <= 450)%Z -> fits_pt k p ->
  exists n, norm p = Ok n /\ 0 <= val n /\ close_to n (len3 (val_pt p)) (6 * bpow radix2 (-53) * len3 (val_pt p) + bpow radix2 (-535)).
Proof. exact norm_err. Qed.
Print Assumptions C106_norm_error.

(** Unit vectors: within 11 * 2^-53 of the exact unit vector in every component. *)
Theorem C106_normalized_error : forall (k : Z) (p : Point3 f64), (k <= 450)%Z -> fits_pt k p -> bpow radix2 (-450) <= len3 (val_pt p) ->
  exists q q', normalized p = Ok q /\ normalize p = Ok q' /\ unit_close q p /\ unit_close q' p.
Proof. exact normalized_err. Qed.
Print Assumptions C106_normalized_error.

Theorem C106_unit_length : forall q p : Point3 f64, 0 < len3 (val_pt p) -> unit_close q p -> Rabs (len3 (val_pt q) - 1) <= 20 * bpow radix2 (-53).
Proof. exact unit_close_len. Qed.
Print Assumptions C106_unit_length.

(** Outside that range: a long vector becomes the null vector, a short one infinities and NaNs. *)
Theorem C106_normalized_refuted : exists p q p' q' : Point3 f64,
  fin (px p) /\ 0 < len3 (val_pt p) /\ normalized p = Ok q /\ fin (px q) /\ fin (py q) /\ fin (pz q) /\ val_pt q = O3 /\
  fin (px p') /\ 0 < len3 (val_pt p') /\ normalized p' = Ok q' /\ ~ fin (px q') /\ ~ fin (py q') /\ ~ fin (pz q').
Proof. exact normalized_refuted. Qed.
Print Assumptions C106_normalized_refuted.

(** The plane through three points passes near them: the flatter the triangle, the weaker the bound. *)
Theorem C106_plane_error : forall (k : Z), (-200 <= k <= 200)%Z -> forall p q r : Point3 f64, fits_pt k p -> fits_pt k q -> fits_pt k r ->
  let P := val_pt p in let Q := val_pt q in let R := val_pt r in
  bpow radix2 (2 * k - 47) <= area3 P Q R ->
  exists pl, plane_of_points p q r = Ok pl /\
    (forall x, x = p \/ x = q \/ x = r -> close_to (plane_distance pl x) 0 (bpow radix2 (k - 53) * (96 * bpow radix2 (2 * k) / area3 P Q R + 92))).
Proof. exact plane_err. Qed.
Print Assumptions C106_plane_error.

Example C106_case : fits_pt 2 (dp 3 (-4) 0) /\ len3 (val_pt (dp 3 (-4) 0)) = 5 /\ bpow radix2 (-450) <= len3 (val_pt (dp 3 (-4) 0)).
Proof. exact vec_case. Qed.
Example C106_plane_case : fits_pt 0 (dp 0 0 0) /\ fits_pt 0 (dp 1 0 0) /\ fits_pt 0 (dp 0 1 0) /\
  bpow radix2 (2 * 0 - 47) <= area3 (val_pt (dp 0 0 0)) (val_pt (dp 1 0 0)) (val_pt (dp 0 1 0)).
Proof. exact plane_case. Qed.
