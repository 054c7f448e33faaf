(** Properties C19, C26, C27, C28, C88: the solids of MeshFactory. *)
From Coq Require Import ZArith List Bool Reals Lra.
From Verif Require Import Base Num MGeometry MKernel MMesh MMeshRun MMeasure MUtil MMeshFactory MF64 SMesh SReach SGeom SMeasure SMeshFac
  LMeshFac4 LMeshFac5 LMeshFac7.
Import ListNotations.
Open Scope Z_scope.

(** C19. Sizes of any sign; the surface is 2(xy+yz+zx) as soon as no size is negative. *)
Theorem C19_box : forall (x y z : R) (m : Mesh R), reach m ->
  exists m' a, create_box x y z m = Ok m' /\ reach m' /\ shows m' a /\ volume m' = Ok (x * y * z)%R /\
    surface m' = Ok (2 * (Rabs (x * y) + Rabs (y * z) + Rabs (z * x)))%R /\ boxed a (Rabs x / 2)%R (Rabs y / 2)%R (Rabs z / 2)%R.
Proof. exact box_R. Qed.
Print Assumptions C19_box.
(** The tetrahedron and the octahedron have equal edges; the measures are those of the regular solids with these edges. *)
Theorem C19_tetrahedron : forall (d : R) (m : Mesh R), reach m -> (0 <= d)%R ->
  exists m' a, create_tetrahedron d m = Ok m' /\ reach m' /\ shows m' a /\ volume m' = Ok (8 / 3 * (d * d * d))%R /\
    surface m' = Ok (8 * sqrt 3 * (d * d))%R /\ boxed a d d d /\
    forall p q r, In (p, q, r) (faces a) -> dist3 p q = (2 * sqrt 2 * d)%R /\ dist3 q r = (2 * sqrt 2 * d)%R /\ dist3 r p = (2 * sqrt 2 * d)%R.
Proof. exact tetra_R. Qed.
Print Assumptions C19_tetrahedron.
Theorem C19_octahedron : forall (d : R) (m : Mesh R), reach m -> (0 <= d)%R ->
  exists m' a, create_octahedron d m = Ok m' /\ reach m' /\ shows m' a /\ volume m' = Ok (4 / 3 * (d * d * d))%R /\
    surface m' = Ok (4 * sqrt 3 * (d * d))%R /\ boxed a d d d /\
    forall p q r, In (p, q, r) (faces a) -> dist3 p q = (sqrt 2 * d)%R /\ dist3 q r = (sqrt 2 * d)%R /\ dist3 r p = (sqrt 2 * d)%R.
Proof. exact octa_R. Qed.
Print Assumptions C19_octahedron.
Example C19_case : reach (@mesh_new R) /\ (0 <= 5)%R.
Proof. split; [apply R_new|lra]. Qed.

(** C26. For every arithmetic in which these divisions work, real or floating point. *)
Theorem C26_fixed_solids_closed : forall (T : Type) (N : Num T) (d x y z : T) (m : Mesh T), divides T -> golden_ok T -> reach m ->
  built (create_tetrahedron d m) 4 4 /\ built (create_box x y z m) 8 12 /\ built (create_octahedron d m) 6 8 /\
  built (create_dodecahedron d m) 20 36.
Proof. exact @fixed_closed. Qed.
Print Assumptions C26_fixed_solids_closed.
Theorem C26_icosahedron_closed : forall (T : Type) (N : Num T) (d : T) (m : Mesh T), divides T -> golden_ok T -> reach m ->
  built (create_icosahedron d m) 12 20.
Proof. exact @ico_built. Qed.
Print Assumptions C26_icosahedron_closed.
Theorem C26_round_solids_closed : forall (T : Type) (N : Num T) (TR : Trig T) (h r rM rm : T) (n : Z) (m : Mesh T), divides T -> reach m -> 0 <= n ->
  built (create_cylinder h r n m) (8 * n + 6) (16 * n + 10) /\
  built (create_sphere_uv r n m) ((4 * n + 2) * (2 * n + 1) + 2) (2 * ((4 * n + 2) * (2 * n + 1))) /\
  built (create_torus rM rm n m) ((4 * n + 2) * (2 * n + 6)) (2 * ((4 * n + 2) * (2 * n + 6))).
Proof. exact @round_closed. Qed.
Print Assumptions C26_round_solids_closed.
(** A negative number of segments stops the cylinder on an assertion and leaves the others without triangles. *)
Theorem C26_negative_count : forall (T : Type) (N : Num T) (TR : Trig T) (h r rM rm : T) (n : Z) (m : Mesh T), divides T -> reach m -> n < 0 ->
  create_cylinder h r n m = Err FAssert /\ built (create_sphere_uv r n m) 2 0 /\ built (create_torus rM rm n m) 0 0.
Proof. exact @round_negative. Qed.
Print Assumptions C26_negative_count.
Example C26_case_reals : divides R /\ golden_ok R. Proof. exact (conj divides_R golden_R). Qed.
Example C26_case_doubles : divides f64 /\ golden_ok f64. Proof. exact (conj divides_f64 golden_f64). Qed.

(** C27. *)
Theorem C27_on_surface : forall (h r rM rm : R) (n : Z) (m : Mesh R), reach m -> 0 <= n ->
  (exists m' a, create_sphere_uv r n m = Ok m' /\ shows m' a /\ forall p, In p (averts a) -> on_sphere r p) /\
  (exists m' a, create_torus rM rm n m = Ok m' /\ shows m' a /\ forall p, In p (averts a) -> on_torus rM rm p) /\
  (exists m' a, create_cylinder h r n m = Ok m' /\ shows m' a /\
     forall p, In p (averts a) -> on_rim r h p \/ p = mkP 0%R 0%R (h / 2)%R \/ p = mkP 0%R 0%R (- (h / 2))%R).
Proof. exact round_on. Qed.
Print Assumptions C27_on_surface.
Theorem C27_geodesic : forall (r : R) (n : Z) (m : Mesh R), reach m -> 1 <= n ->
  exists m' a', create_sphere_geodesic r n m = Ok m' /\ reach m' /\ shows m' a' /\ len (live a') = 20 * n * n /\
    forall p, In p (averts a') -> on_sphere r p.
Proof. exact geodesic_ok. Qed.
Print Assumptions C27_geodesic.
Example C27_case : reach (@mesh_new R) /\ 1 <= 4. Proof. split; [apply R_new|discriminate]. Qed.

(** C28 is false for every segment count: the last turn of each cap loop uses the centre as a rim vertex, so exactly
    one triangle of each cap has a repeated vertex (all other triangles have three different ones) ... *)
Theorem C28_two_repeats_refuted : forall (T : Type) (N : Num T) (TR : Trig T) (h r : T) (n : Z) (m : Mesh T), divides T -> reach m -> 0 <= n ->
  exists m' a, create_cylinder h r n m = Ok m' /\ reach m' /\ shows m' a /\ let L := 4 * n + 2 in
    filter repeats (live a) = [(2 * L, 2 * L - 2, 2 * L); (2 * L + 1, 2 * L + 1, 2 * L - 1)].
Proof. exact @cylinder_repeats. Qed.
Print Assumptions C28_two_repeats_refuted.
(** ... while the sphere and the torus have none. *)
Theorem C28_sphere_torus : forall (T : Type) (N : Num T) (TR : Trig T) (r rM rm : T) (n : Z) (m : Mesh T), divides T -> reach m -> 0 <= n ->
  (exists m' a, create_sphere_uv r n m = Ok m' /\ reach m' /\ shows m' a /\ filter repeats (live a) = []) /\
  (exists m' a, create_torus rM rm n m = Ok m' /\ reach m' /\ shows m' a /\ filter repeats (live a) = []).
Proof. exact @others_repeat_free. Qed.
Print Assumptions C28_sphere_torus.
Example C28_case : divides R /\ reach (@mesh_new R) /\ 0 <= 3 /\ repeats (28, 26, 28) = true /\ repeats (0, 1, 2) = false.
Proof. split; [exact divides_R|]. split; [apply R_new|]. split; [discriminate|]. split; reflexivity. Qed.

(** C88. *)
Theorem C88_icosahedron_regular : forall (d : R) (m : Mesh R), reach m ->
  exists m' a, create_icosahedron d m = Ok m' /\ reach m' /\ shows m' a /\ let s := (2 * tau * d)%R in
    volume m' = Ok (5 * (3 + sqrt 5) / 12 * (s * s * s))%R /\
    (forall p, In p (averts a) -> on_sphere (d * sqrt (1 + tau * tau))%R p) /\
    forall p q r, In (p, q, r) (faces a) -> dist3 p q = Rabs s /\ dist3 q r = Rabs s /\ dist3 r p = Rabs s.
Proof. exact ico_R. Qed.
Print Assumptions C88_icosahedron_regular.
Theorem C88_dodecahedron_regular : forall (d : R) (m : Mesh R), reach m ->
  exists m' a fs, create_dodecahedron d m = Ok m' /\ reach m' /\ shows m' a /\ let s := (2 * tau * d)%R in
    volume m' = Ok ((15 + 7 * sqrt 5) / 4 * (s * s * s))%R /\
    (forall p, In p (averts a) -> on_sphere (d * sqrt 3)%R p) /\
    live a = flat_map fan5 fs /\ len fs = 12 /\
    forall f, In f fs -> regular_pentagon (Rabs s) (map (fun i => pt a i O3) f).
Proof. exact dodeca_R. Qed.
Print Assumptions C88_dodecahedron_regular.
Example C88_case : reach (@mesh_new R). Proof. apply R_new. Qed.
