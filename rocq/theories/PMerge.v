(** Property C118: merging vertices in any arithmetic, in doubles, and after a trip through an STL file.  Only statements. *)
From Coq Require Import ZArith List Bool Reals Sorted.
From Flocq Require Import Core.
From Verif Require Import Base Num MGeometry MMesh MUtil MStl MF64 SMesh SReach SGeom SMeasure SUtil SErr SMerge LErrEx LErrF LMergeG LMergeD.
Import ListNotations.
Open Scope R_scope.

(** With numbers of any kind merge_vertices succeeds; what it merges is decided by the distances as computed.  [ks] lists the ids of the vertices that stay, [f] sends an old id to its new one. *)
Theorem C118_any_numbers : forall (T : Type) (N : Num T) (m : Mesh T) (a : AMesh T) (tol : T) (d : Point3 T), reach m -> shows m a ->
  exists m' ks f, merge_vertices m tol = Ok m' /\ reach m' /\
    shows m' (mkA (map (fun k => pt a k d) ks) (map (fun t => (map_triple f t, true)) (live a)) (acolor a)) /\
    StronglySorted Z.lt ks /\ (forall k, In k ks -> (0 <= k < len (averts a))%Z) /\
    (forall i j, In i ks -> In j ks -> (j < i)%Z -> found_near tol (pt a i d) (pt a j d) = false) /\
    (forall i, (0 <= i < len (averts a))%Z -> exists k, (0 <= f i)%Z /\ nth_error ks (Z.to_nat (f i)) = Some k /\
       (k = i \/ (k < i)%Z /\ found_near tol (pt a i d) (pt a k d) = true)).
Proof. exact @merge_any. Qed.
Print Assumptions C118_any_numbers.

(** In doubles up to 2^400 and for a tolerance of at least 2^-400 the computed decision is right up to a share of 2^-50 of the tolerance. *)
Theorem C118_doubles : forall (m : Mesh f64) (a : AMesh f64) (tol : f64) (k : Z), reach m -> shows m a -> (k <= 400)%Z -> Forall (fits_pt k) (averts a) -> fits 400 tol -> bpow radix2 (-400) <= Rabs (val tol) ->
  exists m' ks f, merge_vertices m tol = Ok m' /\ reach m' /\
    shows m' (mkA (map (fun k => pt a k zero_pt) ks) (map (fun t => (map_triple f t, true)) (live a)) (acolor a)) /\
    StronglySorted Z.lt ks /\ (forall k, In k ks -> (0 <= k < len (averts a))%Z) /\
    (forall i j, In i ks -> In j ks -> i <> j -> (1 - bpow radix2 (-50)) * Rabs (val tol) <= dist3 (pt (val_mesh a) i O3) (pt (val_mesh a) j O3)) /\
    (forall i, (0 <= i < len (averts a))%Z -> exists k, (0 <= f i)%Z /\ nth_error ks (Z.to_nat (f i)) = Some k /\
       (k = i \/ (k < i)%Z /\ dist3 (pt (val_mesh a) i O3) (pt (val_mesh a) k O3) < (1 + bpow radix2 (-50)) * Rabs (val tol))).
Proof. exact merge_doubles. Qed.
Print Assumptions C118_doubles.

(** Vertices that are equal or farther apart than the tolerance are welded: each position once, the same faces, and a surface closed by position becomes closed by vertex ids. *)
Theorem C118_weld : forall (m : Mesh f64) (a : AMesh f64) (tol : f64) (k : Z), reach m -> shows m a -> (k <= 400)%Z -> Forall (fits_pt k) (averts a) -> fits 400 tol -> bpow radix2 (-400) <= Rabs (val tol) ->
  (forall p q, In p (averts (val_mesh a)) -> In q (averts (val_mesh a)) -> p = q \/ (1 + bpow radix2 (-50)) * Rabs (val tol) <= dist3 p q) ->
  exists m' a', merge_vertices m tol = Ok m' /\ reach m' /\ shows m' a' /\
    NoDup (averts (val_mesh a')) /\ (forall p, In p (averts (val_mesh a')) <-> In p (averts (val_mesh a))) /\ faces (val_mesh a') = faces (val_mesh a) /\
    (closed_surface (faces (val_mesh a)) -> index_closed (live a')).
Proof. exact weld_doubles. Qed.
Print Assumptions C118_weld.

(** An STL file stores every triangle by itself; loading it and merging vertices gives back a mesh that is closed by vertex ids. *)
Theorem C118_stl : forall (m m0 : Mesh f64) (a : AMesh f64) (tol : f64) (k : Z), reach m -> shows m a -> reach m0 -> (-100 <= k <= 100)%Z -> Forall (fits_pt k) (averts a) -> (len (live a) < 2147483648)%Z -> fits 400 tol -> bpow radix2 (-400) <= Rabs (val tol) ->
  (forall p q, In p (averts (val_mesh a)) -> In q (averts (val_mesh a)) -> p = q \/ (1 + bpow radix2 (-50)) * Rabs (val tol) + bpow radix2 (k - 22) <= dist3 p q) -> closed_surface (faces (val_mesh a)) ->
  exists l m1 m2 b, stl_save m = Ok l /\ stl_load l m0 = Ok (true, m1) /\ merge_vertices m1 tol = Ok m2 /\ reach m2 /\ shows m2 b /\ Forall2 (faces_within (bpow radix2 (k - 23))) (faces (val_mesh a)) (faces (val_mesh b)) /\ NoDup (averts (val_mesh b)) /\ index_closed (live b).
Proof. exact weld_stl. Qed.
Print Assumptions C118_stl.
(** A corner of edge 4 and a tolerance of 1 meet the hypotheses. *)
Example C118_case : let m := corner_mesh 0 4 true in let a := corner_abs 0 4 true in
  reach m /\ shows m a /\ Forall (fits_pt 2) (averts a) /\ len (live a) = 4%Z /\ fits 400 (f64_ofZ 1) /\ bpow radix2 (-400) <= Rabs (val (f64_ofZ 1)) /\
  (forall p q, In p (averts (val_mesh a)) -> In q (averts (val_mesh a)) -> p = q \/ (1 + bpow radix2 (-50)) * Rabs (val (f64_ofZ 1)) + bpow radix2 (2 - 22) <= dist3 p q) /\
  closed_surface (faces (val_mesh a)).
Proof. exact weld_case. Qed.
