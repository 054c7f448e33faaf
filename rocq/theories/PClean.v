(** Property C119: removing empty triangles and tessellating in any arithmetic and in doubles.  Only statements. *)
From Coq Require Import ZArith List Bool Reals.
From Flocq Require Import Core.
From Verif Require Import Base Num MGeometry MMesh MMeasure MUtil MStl MF64 SMesh SReach SGeom SMeasure SUtil SErr SErrM SMerge SClean LErrEx LErrF LCleanG LCleanD LCleanW.
Import ListNotations.
Open Scope R_scope.

(** With numbers of any kind: a triangle stays exactly when none of its sides, as computed, is below the tolerance; vertices, ids and colour are kept. *)
Theorem C119_remove_any_numbers : forall (T : Type) (N : Num T) (m : Mesh T) (a : AMesh T) (tol : T) (d : Point3 T), reach m -> shows m a ->
  exists m' a', remove_empty_triangles m tol = Ok m' /\ reach m' /\ shows m' a' /\ averts a' = averts a /\ acolor a' = acolor a /\
    Forall2 (fun t t' => fst t' = fst t /\ snd t' = snd t && negb (at_corners (found_thin tol) a d (fst t))) (atris a) (atris a').
Proof. exact @remove_any. Qed.
Print Assumptions C119_remove_any_numbers.

(** In doubles up to 2^400 and for a tolerance of at least 2^-400 this is right up to a share of 2^-50 of the tolerance. *)
Theorem C119_remove_doubles : forall (m : Mesh f64) (a : AMesh f64) (tol : f64) (k : Z), reach m -> shows m a -> (k <= 400)%Z -> Forall (fits_pt k) (averts a) -> fits 400 tol -> bpow radix2 (-400) <= Rabs (val tol) ->
  exists m' a', remove_empty_triangles m tol = Ok m' /\ reach m' /\ shows m' a' /\ averts a' = averts a /\ acolor a' = acolor a /\
    Forall2 (fun t t' => fst t' = fst t /\ (snd t' = true -> snd t = true /\ sides_from ((1 - bpow radix2 (-50)) * Rabs (val tol)) (corners (val_mesh a) (fst t))) /\
                         (snd t' = false -> snd t = false \/ thin ((1 + bpow radix2 (-50)) * val tol) (corners (val_mesh a) (fst t)))) (atris a) (atris a').
Proof. exact remove_doubles. Qed.
Print Assumptions C119_remove_doubles.

(** Tessellating doubles up to 2^k: n * n triangles for each one, their corners within 2^(k - 48) of those of an exact subdivision; volume, area and orientation are kept up to rounding. *)
Theorem C119_tessellate_doubles : forall (m mo : Mesh f64) (a : AMesh f64) (k n : Z), reach m -> shows m a -> reach mo -> (-190 <= k <= 190)%Z -> Forall (fits_pt k) (averts a) -> (1 <= n)%Z -> (n * n * len (live a) <= 2 ^ 50)%Z -> (n <= 2 ^ 50)%Z ->
  let N := (n * n * len (live a))%Z in let e := 12 * bpow radix2 (k - 53) in let ev := vol_err (IZR N) (k + 1) e in
  exists m' a' cut v s, tessellate m n mo = Ok m' /\ reach m' /\ shows m' a' /\ (forall f, cuts n f (cut f)) /\
    Forall2 (faces_within (bpow radix2 (k - 48))) (flat_map cut (faces (val_mesh a))) (faces (val_mesh a')) /\
    averts (val_mesh a') = corners_of (faces (val_mesh a')) /\ len (live a') = N /\ len (averts a') = (3 * N)%Z /\ acolor a' = get_color mo /\
    volume m' = Ok v /\ close_to v (total_vol (val_mesh a)) ev /\ surface m' = Ok s /\ close_to s (total_area (val_mesh a)) (area_err (IZR N) (k + 1) e) /\
    (ev < total_vol (val_mesh a) -> is_oriented_outside m' = Ok true) /\ (total_vol (val_mesh a) < - ev -> is_oriented_outside m' = Ok false).
Proof. exact tessellate_doubles. Qed.
Print Assumptions C119_tessellate_doubles.

(** Over the reals a closed surface stays closed.  In doubles it does not: three parts along each side of a unit corner leave cracks. *)
Theorem C119_stays_closed_refuted : let m := corner_mesh 0 1 true in let a := corner_abs 0 1 true in reach m /\ shows m a /\ closed_surface (faces (val_mesh a)) /\
  exists m' a', tessellate m 3 mesh_new = Ok m' /\ reach m' /\ shows m' a' /\ ~ closed_surface (faces (val_mesh a')).
Proof. exact cracks. Qed.
Print Assumptions C119_stays_closed_refuted.

(** merge_vertices welds the cracks, for a tolerance above the rounding errors and below the distance of different grid points: the result is closed by vertex ids. *)
Theorem C119_welded_partial : forall (m mo : Mesh f64) (a : AMesh f64) (k n : Z) (tol : f64), reach m -> shows m a -> reach mo -> (-350 <= k <= 390)%Z -> Forall (fits_pt k) (averts a) -> (1 <= n <= 2 ^ 50)%Z ->
  closed_surface (faces (val_mesh a)) -> fits 400 tol -> bpow radix2 (k - 46) <= Rabs (val tol) -> grid_apart ((1 + bpow radix2 (-50)) * Rabs (val tol) + bpow radix2 (k - 47)) n (faces (val_mesh a)) ->
  exists m1 m2 b cut, tessellate m n mo = Ok m1 /\ merge_vertices m1 tol = Ok m2 /\ reach m2 /\ shows m2 b /\ (forall f, cuts n f (cut f)) /\
    Forall2 (faces_within (bpow radix2 (k - 48))) (flat_map cut (faces (val_mesh a))) (faces (val_mesh b)) /\ index_closed (live b).
Proof. exact tess_weld. Qed.
Print Assumptions C119_welded_partial.

(** A corner of edge 4, two parts along each side and a tolerance of 1 meet the hypotheses. *)
Example C119_case : let m := corner_mesh 0 4 true in let a := corner_abs 0 4 true in
  reach m /\ shows m a /\ reach (@mesh_new f64) /\ Forall (fits_pt 2) (averts a) /\ len (live a) = 4%Z /\ fits 400 (f64_ofZ 1) /\ bpow radix2 (-400) <= Rabs (val (f64_ofZ 1)) /\ bpow radix2 (2 - 46) <= Rabs (val (f64_ofZ 1)) /\
  closed_surface (faces (val_mesh a)) /\ grid_apart ((1 + bpow radix2 (-50)) * Rabs (val (f64_ofZ 1)) + bpow radix2 (2 - 47)) 2 (faces (val_mesh a)).
Proof. exact clean_case. Qed.
