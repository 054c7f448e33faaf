(** Property C114: the solids of MeshFactory built in doubles. *)
From Coq Require Import ZArith List Bool Reals.
From Flocq Require Import Core.
From Verif Require Import Base Num MGeometry MMesh MMeasure MMeshFactory MTransform MStl MF64 SMesh SReach SGeom SRound SErr SErrN SErrD LErrR2.
Import ListNotations.
Open Scope R_scope.

(** Sizes up to 2^k and a cosine and sine within 2^-53.  A cylinder: the vertices lie on the circles, the volume is that of the prism, and the mesh is reported as oriented outwards. *)
Theorem C114_cylinder : forall (TR : Trig f64), good_trig TR -> forall k : Z, (-190 <= k <= 190)%Z -> forall n : Z, (0 <= n <= 2 ^ 20)%Z -> forall m : Mesh f64, reach m ->
  forall h r : f64, fits k h -> fits k r -> let N := (2 + 4 * n)%Z in let t := IZR (10 + 16 * n) in
  exists m' a v, create_cylinder h r n m = Ok m' /\ reach m' /\ shows m' a /\ len (live a) = (10 + 16 * n)%Z /\
    (forall i, (0 <= i < N)%Z -> dist3 (pt (val_mesh a) (2 * i) O3) (cylinder_point (val r) (val h / 2) (part N i)) <= 27 * bpow radix2 (k - 53) /\
                                 dist3 (pt (val_mesh a) (2 * i + 1) O3) (cylinder_point (val r) (- (val h / 2)) (part N i)) <= 27 * bpow radix2 (k - 53)) /\
    dist3 (pt (val_mesh a) (2 * N) O3) (mkP 0 0 (val h / 2)) <= 27 * bpow radix2 (k - 53) /\ dist3 (pt (val_mesh a) (2 * N + 1) O3) (mkP 0 0 (- (val h / 2))) <= 27 * bpow radix2 (k - 53) /\
    volume m' = Ok v /\ close_to v (prism_volume N (val r) (val h)) (3 * t * (t + 24) * bpow radix2 (3 * k - 53)) /\
    (3 * t * (t + 24) * bpow radix2 (3 * k - 53) < prism_volume N (val r) (val h) -> is_oriented_outside m' = Ok true).
Proof. exact cylinder64. Qed.
Print Assumptions C114_cylinder.

(** A sphere of meridians and parallels ... *)
Theorem C114_sphere : forall (TR : Trig f64), good_trig TR -> forall k : Z, (-190 <= k <= 190)%Z -> forall n : Z, (0 <= n <= 2 ^ 20)%Z -> forall m : Mesh f64, reach m ->
  forall r : f64, fits k r -> let N := (2 + 4 * n)%Z in let M := (2 + 2 * n)%Z in let t := IZR (2 * (4 * n + 2) * (2 * n + 1)) in
  exists m' a v, create_sphere_uv r n m = Ok m' /\ reach m' /\ shows m' a /\ len (live a) = (2 * (4 * n + 2) * (2 * n + 1))%Z /\
    (forall i j, (0 <= i < N)%Z -> (1 <= j < M)%Z -> dist3 (pt (val_mesh a) (i * (M - 1) + (j - 1)) O3) (sphere_point (val r) (part N i) (half_part M j)) <= 53 * bpow radix2 (k - 53)) /\
    dist3 (pt (val_mesh a) (N * (M - 1)) O3) (mkP 0 0 (val r)) <= 53 * bpow radix2 (k - 53) /\ dist3 (pt (val_mesh a) (N * (M - 1) + 1) O3) (mkP 0 0 (- val r)) <= 53 * bpow radix2 (k - 53) /\
    volume m' = Ok v /\ close_to v (globe_volume N M (val r)) (3 * t * (t + 39) * bpow radix2 (3 * k - 53)) /\
    (3 * t * (t + 39) * bpow radix2 (3 * k - 53) < globe_volume N M (val r) -> is_oriented_outside m' = Ok true).
Proof. exact sphere64. Qed.
Print Assumptions C114_sphere.

(** ... and a torus. *)
Theorem C114_torus : forall (TR : Trig f64), good_trig TR -> forall k : Z, (-190 <= k <= 190)%Z -> forall n : Z, (0 <= n <= 2 ^ 20)%Z -> forall m : Mesh f64, reach m ->
  forall rM rm : f64, fits k rM -> fits k rm -> let N := (2 + 4 * n)%Z in let M := (6 + 2 * n)%Z in let t := IZR (2 * (4 * n + 2) * (2 * n + 6)) in
  exists m' a v, create_torus rM rm n m = Ok m' /\ reach m' /\ shows m' a /\ len (live a) = (2 * (4 * n + 2) * (2 * n + 6))%Z /\
    (forall i j, (0 <= i < N)%Z -> (0 <= j < M)%Z -> dist3 (pt (val_mesh a) (i * M + j) O3) (torus_point (val rM) (val rm) (part N i) (part M j)) <= 79 * bpow radix2 (k - 53)) /\
    volume m' = Ok v /\ close_to v (ring_volume N M (val rM) (val rm)) (24 * t * (t + 31) * bpow radix2 (3 * k - 53)) /\
    (24 * t * (t + 31) * bpow radix2 (3 * k - 53) < ring_volume N M (val rM) (val rm) -> is_oriented_outside m' = Ok true).
Proof. exact torus64. Qed.
Print Assumptions C114_torus.

(** Distance of the volumes from those of the smooth solids: the facets' share plus that of rounding. *)
Theorem C114_smooth : forall (TR : Trig f64) (k n : Z) (m : Mesh f64) (h r rM rm : f64), good_trig TR -> (-190 <= k <= 190)%Z -> (0 <= n <= 2 ^ 20)%Z -> reach m ->
  fits k h -> fits k r -> fits k rM -> fits k rm -> let N := IZR (2 + 4 * n) in let u := bpow radix2 (3 * k - 53) in
  (exists m' v, create_cylinder h r n m = Ok m' /\ volume m' = Ok v /\ let t := IZR (10 + 16 * n) in
    close_to v (PI * (val r * val r) * val h) (22 / (N * N) * (val r * val r * Rabs (val h)) + 3 * t * (t + 24) * u)) /\
  (exists m' v, create_sphere_uv r n m = Ok m' /\ volume m' = Ok v /\ let t := IZR (2 * (4 * n + 2) * (2 * n + 1)) in
    close_to v (4 / 3 * PI * (val r * val r * val r)) (75 / (N * N) * (Rabs (val r) * Rabs (val r) * Rabs (val r)) + 3 * t * (t + 39) * u)) /\
  (exists m' v, create_torus rM rm n m = Ok m' /\ volume m' = Ok v /\ let t := IZR (2 * (4 * n + 2) * (2 * n + 6)) in
    close_to v (2 * (PI * PI) * val rM * (val rm * val rm)) (710 / (N * N) * (Rabs (val rM) * (val rm * val rm)) + 24 * t * (t + 31) * u)).
Proof. exact smooth64. Qed.
Print Assumptions C114_smooth.

(** Sizes within a factor of two of each other and up to 1000 segments: always oriented outwards. *)
Theorem C114_outwards : forall (TR : Trig f64) (k n : Z) (m : Mesh f64) (h r rM rm : f64), good_trig TR -> (-190 <= k <= 190)%Z -> (1 <= n <= 1000)%Z -> reach m ->
  fits k h -> fits k r -> fits k rM -> fits k rm ->
  bpow radix2 (k - 1) <= val h -> bpow radix2 (k - 1) <= val r -> bpow radix2 (k - 1) <= val rM -> bpow radix2 (k - 1) <= val rm ->
  (exists m', create_cylinder h r n m = Ok m' /\ is_oriented_outside m' = Ok true) /\ (exists m', create_sphere_uv r n m = Ok m' /\ is_oriented_outside m' = Ok true) /\
  (exists m', create_torus rM rm n m = Ok m' /\ is_oriented_outside m' = Ok true).
Proof. exact outwards64. Qed.
Print Assumptions C114_outwards.

(** Solids without cosines: a box, a tetrahedron, an octahedron. *)
Theorem C114_box : forall k : Z, (-190 <= k <= 190)%Z -> forall (x y z : f64) (m : Mesh f64), reach m -> fits k x -> fits k y -> fits k z ->
  exists m' a v, create_box x y z m = Ok m' /\ reach m' /\ shows m' a /\ len (averts a) = 8%Z /\
  (forall p, In p (averts a) -> fits_pt k p /\ Rabs (Rabs (val (px p)) - Rabs (val x) / 2) <= bpow radix2 (k - 53) /\ Rabs (Rabs (val (py p)) - Rabs (val y) / 2) <= bpow radix2 (k - 53) /\ Rabs (Rabs (val (pz p)) - Rabs (val z) / 2) <= bpow radix2 (k - 53)) /\
  volume m' = Ok v /\ close_to v (val x * val y * val z) (756 * bpow radix2 (3 * k - 53)) /\
  (756 * bpow radix2 (3 * k - 53) < val x * val y * val z -> is_oriented_outside m' = Ok true).
Proof. exact box64. Qed.
Print Assumptions C114_box.
Theorem C114_tetrahedron : forall k : Z, (-190 <= k <= 190)%Z -> forall (d : f64) (m : Mesh f64), reach m -> fits k d ->
  exists m' a v, create_tetrahedron d m = Ok m' /\ reach m' /\ shows m' a /\ len (live a) = 4%Z /\
  volume m' = Ok v /\ close_to v (8 / 3 * (val d * val d * val d)) (144 * bpow radix2 (3 * k - 53)) /\
  (144 * bpow radix2 (3 * k - 53) < 8 / 3 * (val d * val d * val d) -> is_oriented_outside m' = Ok true).
Proof. exact tetra64. Qed.
Print Assumptions C114_tetrahedron.
Theorem C114_octahedron : forall k : Z, (-190 <= k <= 190)%Z -> forall (d : f64) (m : Mesh f64), reach m -> fits k d ->
  exists m' a v, create_octahedron d m = Ok m' /\ reach m' /\ shows m' a /\ len (live a) = 8%Z /\
  volume m' = Ok v /\ close_to v (4 / 3 * (val d * val d * val d)) (384 * bpow radix2 (3 * k - 53)) /\
  (384 * bpow radix2 (3 * k - 53) < 4 / 3 * (val d * val d * val d) -> is_oriented_outside m' = Ok true).
Proof. exact octa64. Qed.
Print Assumptions C114_octahedron.

(** Correctly rounded functions, an empty mesh, and sizes 3 and 4 with k = 2; they are large enough for the orientation of the box, tetrahedron and octahedron. *)
Example C114_case : good_trig correct_trig /\ reach (@mesh_new f64) /\ fits 2 (f64_ofZ 3) /\ fits 2 (f64_ofZ 4) /\ bpow radix2 1 <= val (f64_ofZ 3) /\ bpow radix2 1 <= val (f64_ofZ 4) /\
  756 * bpow radix2 (3 * 2 - 53) < val (f64_ofZ 3) * val (f64_ofZ 4) * val (f64_ofZ 4) /\
  384 * bpow radix2 (3 * 2 - 53) < 4 / 3 * (val (f64_ofZ 3) * val (f64_ofZ 3) * val (f64_ofZ 3)).
Proof. exact solids_case. Qed.
