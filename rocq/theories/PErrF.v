(** Property C115: what a trip through an STL or OBJ file does to the measures of a mesh of doubles. *)
From Coq Require Import ZArith List Bool Reals.
From Flocq Require Import Core.
From Verif Require Import Base Num MGeometry MMesh MMeasure MText MObj MStl MF64 MFormat SMesh SReach SGeom SMeasure SStl SObj SErr LErrEx LErrF.
Import ListNotations.
Open Scope R_scope.

(** Coordinates up to 2^k.  STL: single precision, 2^-24 of the size. *)
Theorem C115_stl : forall (m m0 : Mesh f64) (a : AMesh f64) (k : Z), reach m -> shows m a -> reach m0 -> (-100 <= k <= 100)%Z -> Forall (fits_pt k) (averts a) -> (len (live a) < 2147483648)%Z ->
  let n := IZR (len (live a)) in let ev := 3 * n * (n + 8) * bpow radix2 (3 * k - 53) + 3 * n * bpow radix2 (3 * k - 24) in
  exists l m' b v s, stl_save m = Ok l /\ stl_load l m0 = Ok (true, m') /\ reach m' /\ shows m' b /\
  volume m' = Ok v /\ close_to v (total_vol (val_mesh a)) ev /\
  surface m' = Ok s /\ close_to s (total_area (val_mesh a)) (n * (4 * n + 70) * bpow radix2 (2 * k - 53) + 14 * n * bpow radix2 (2 * k - 24)) /\
  (ev < total_vol (val_mesh a) -> is_oriented_outside m' = Ok true) /\ (total_vol (val_mesh a) < - ev -> is_oriented_outside m' = Ok false) /\
  (closed_surface (faces (val_mesh a)) -> closed_surface (faces (val_mesh b))).
Proof. exact stl_measures. Qed.
Print Assumptions C115_stl.

(** OBJ: six digits, 7/1000000 of the size. *)
Theorem C115_obj : forall (m m0 : Mesh f64) (a : AMesh f64) (k : Z), reach m -> shows m a -> reach m0 -> (-100 <= k <= 100)%Z -> Forall (fits_pt k) (averts a) -> (len (averts a) < int_max)%Z -> (len (live a) <= 2 ^ 50)%Z ->
  let n := IZR (len (live a)) in let ev := 3 * n * (n + 8) * bpow radix2 (3 * k - 50) + 84 / 1000000 * n * bpow radix2 (3 * k) in
  exists t m' b v s, obj_save m = Ok (true, t) /\ obj_load t m0 = Ok (true, m') /\ reach m' /\ shows m' b /\
  volume m' = Ok v /\ close_to v (total_vol (val_mesh a)) ev /\
  surface m' = Ok s /\ close_to s (total_area (val_mesh a)) (n * (4 * n + 70) * bpow radix2 (2 * k - 51) + 196 / 1000000 * n * bpow radix2 (2 * k)) /\
  (ev < total_vol (val_mesh a) -> is_oriented_outside m' = Ok true) /\ (total_vol (val_mesh a) < - ev -> is_oriented_outside m' = Ok false) /\
  (closed_surface (faces (val_mesh a)) -> closed_surface (faces (val_mesh b))).
Proof. exact obj_measures. Qed.
Print Assumptions C115_obj.

(** A tetrahedron on the axes with edges of length 1: the volume exceeds both bounds. *)
Example C115_case : let m := corner_mesh 0 1 true in let a := corner_abs 0 1 true in
  reach m /\ shows m a /\ Forall (fits_pt 0) (averts a) /\ len (live a) = 4%Z /\ (len (averts a) < int_max)%Z /\ total_vol (val_mesh a) = 1 / 6 /\
  3 * 4 * (4 + 8) * bpow radix2 (3 * 0 - 53) + 3 * 4 * bpow radix2 (3 * 0 - 24) < 1 / 6 /\
  3 * 4 * (4 + 8) * bpow radix2 (3 * 0 - 50) + 84 / 1000000 * 4 * bpow radix2 (3 * 0) < 1 / 6.
Proof. exact files_case. Qed.
