(** C104: subdivision and merging keep a closed surface closed; the geodesic sphere.  Only statements. *)
From Coq Require Import ZArith List Bool Reals Lra.
From Verif Require Import Base Num MGeometry MKernel MMesh MMeshRun MMeasure MUtil MMeshFactory SMesh SReach SGeom SMeasure SUtil SMeshFac LReach LMeasureEx LGeo1 LGeo2 LGeo5 LGeoEx.
Import ListNotations.
Open Scope R_scope.

(** Cutting every triangle of a closed surface into n * n triangles leaves no crack: along each old edge the new edges
    of the two neighbours are the same. *)
Theorem C104_tessellate : forall (m mo : Mesh R) (a : AMesh R) (n : Z), reach m -> shows m a -> reach mo -> (1 <= n)%Z -> closed_surface (faces a) ->
  exists m' a', tessellate m n mo = Ok m' /\ reach m' /\ shows m' a' /\ closed_surface (faces a').
Proof. exact tessellate_keeps_closed. Qed.
Print Assumptions C104_tessellate.
(** Merging the vertices of a mesh whose vertices either coincide or keep the tolerance apart: one vertex for each
    position, the same faces at the same places, and a closed surface becomes closed by vertex numbers too. *)
Theorem C104_merge : forall (m : Mesh R) (a : AMesh R) (tol : R), reach m -> shows m a -> tol <> 0 ->
  (forall p q, In p (averts a) -> In q (averts a) -> p = q \/ ~ short tol p q) ->
  exists m' a', merge_vertices m tol = Ok m' /\ reach m' /\ shows m' a' /\
    NoDup (averts a') /\ (forall p, In p (averts a') <-> In p (averts a)) /\ faces a' = faces a /\
    (closed_surface (faces a) -> index_closed (live a')).
Proof. exact merge_welds. Qed.
Print Assumptions C104_merge.
(** The geodesic sphere: 10 n^2 + 2 vertices, no two at the same place, all on the sphere; 20 n^2 triangles; closed by
    vertex numbers; every triangle winds outwards. *)
Theorem C104_geodesic : forall (r : R) (n : Z) (m : Mesh R), reach m -> (1 <= n)%Z -> r <> 0 ->
  exists m' a', create_sphere_geodesic r n m = Ok m' /\ reach m' /\ shows m' a' /\
    NoDup (averts a') /\ len (averts a') = (10 * n * n + 2)%Z /\ len (live a') = (20 * n * n)%Z /\ index_closed (live a') /\
    (forall p, In p (averts a') -> on_sphere r p) /\ (0 < r -> forall f, In f (faces a') -> 0 < vol_tri f).
Proof. exact geodesic_closed. Qed.
Print Assumptions C104_geodesic.

(** The tetrahedron on the axes can be subdivided. *)
Example C104_case_tessellate : exists (m : Mesh R) a, reach m /\ shows m a /\ closed_surface (faces a) /\ len (live a) = 4%Z /\ reach (@mesh_new R).
Proof. destruct tetra_exists as [m [R [S [_ C]]]]. exists m, tetra_abs. repeat split; try assumption; try apply S. apply R_new. Qed.
(** The two sides of a triangle, as two separate triangles: open by vertex numbers, but closed by position. *)
Example C104_case_merge : exists (m : Mesh R) a, reach m /\ shows m a /\ 1 / 2 <> 0 /\
  (forall p q, In p (averts a) -> In q (averts a) -> p = q \/ ~ short (1 / 2) p q) /\ closed_surface (faces a) /\ ~ index_closed (live a).
Proof. destruct flat_exists as [m [R S]]. exists m, flat_abs. split; [exact R|]. split; [exact S|]. split; [lra|]. split; [exact flat_apart|]. split; [exact flat_closed|exact flat_open_ids]. Qed.
(** n = 2: 42 vertices and 80 triangles (tests/test_meshoperations.cpp expects 42). *)
Example C104_case_geodesic : reach (@mesh_new R) /\ (1 <= 2)%Z /\ 5 <> 0 /\ (10 * 2 * 2 + 2 = 42)%Z /\ (20 * 2 * 2 = 80)%Z.
Proof. split; [apply R_new|]. repeat split; try lra; discriminate. Qed.
