(** C103: round solids are regular and have the right volume.  Only statements. *)
From Coq Require Import ZArith List Bool Reals Lra.
From Verif Require Import Base Num MGeometry MKernel MMesh MMeshRun MMeasure MMeshFactory SMesh SReach SGeom SMeasure SMeshFac SRound LReach LPi LRound3 LRound4 LRound5.
Import ListNotations.
Open Scope R_scope.

(** Cylinder: both rims at N equal parts of a turn, the centres of the caps last, and the volume of the prism. *)
Theorem C103_cylinder : forall (h r : R) (n : Z) (m : Mesh R), reach m -> (0 <= n)%Z -> let N := (2 + 4 * n)%Z in
  exists m' a v, create_cylinder h r n m = Ok m' /\ reach m' /\ shows m' a /\
    (forall k, (0 <= k < N)%Z -> dist3 (pt a (2 * k) O3) (cylinder_point r (h / 2) (part N k)) <= tiny * Rabs r /\
                                 dist3 (pt a (2 * k + 1) O3) (cylinder_point r (- (h / 2)) (part N k)) <= tiny * Rabs r) /\
    pt a (2 * N) O3 = mkP 0 0 (h / 2) /\ pt a (2 * N + 1) O3 = mkP 0 0 (- (h / 2)) /\
    volume m' = Ok v /\ Rabs (v - prism_volume N r h) <= tiny * (r * r * Rabs h).
Proof. exact cylinder_round. Qed.
Print Assumptions C103_cylinder.
(** Sphere: N meridians, each with M - 1 points at equal parts of half a turn, then the poles. *)
Theorem C103_sphere : forall (r : R) (n : Z) (m : Mesh R), reach m -> (0 <= n)%Z -> let N := (2 + 4 * n)%Z in let M := (2 + 2 * n)%Z in
  exists m' a v, create_sphere_uv r n m = Ok m' /\ reach m' /\ shows m' a /\
    (forall i j, (0 <= i < N)%Z -> (1 <= j < M)%Z -> dist3 (pt a (i * (M - 1) + (j - 1)) O3) (sphere_point r (part N i) (half_part M j)) <= tiny * Rabs r) /\
    pt a (N * (M - 1)) O3 = mkP 0 0 r /\ pt a (N * (M - 1) + 1) O3 = mkP 0 0 (- r) /\
    volume m' = Ok v /\ Rabs (v - globe_volume N M r) <= tiny * (Rabs r * Rabs r * Rabs r).
Proof. exact sphere_round. Qed.
Print Assumptions C103_sphere.
(** Torus: N circles of M points each. *)
Theorem C103_torus : forall (rM rm : R) (n : Z) (m : Mesh R), reach m -> (0 <= n)%Z -> let N := (2 + 4 * n)%Z in let M := (6 + 2 * n)%Z in
  exists m' a v, create_torus rM rm n m = Ok m' /\ reach m' /\ shows m' a /\
    (forall i j, (0 <= i < N)%Z -> (0 <= j < M)%Z -> dist3 (pt a (i * M + j) O3) (torus_point rM rm (part N i) (part M j)) <= tiny * (Rabs rM + Rabs rm)) /\
    volume m' = Ok v /\ Rabs (v - ring_volume N M rM rm) <= tiny * ((Rabs rM + Rabs rm) * (rm * rm)).
Proof. exact torus_round. Qed.
Print Assumptions C103_torus.
(** The error against the smooth solid falls with the square of the number of segments. *)
Theorem C103_smooth : forall (h r rM rm : R) (n : Z) (m : Mesh R), reach m -> (0 <= n)%Z -> let N := IZR (2 + 4 * n) in
  (exists m' v, create_cylinder h r n m = Ok m' /\ volume m' = Ok v /\ Rabs (v - PI * (r * r) * h) <= (22 / (N * N) + tiny) * (r * r * Rabs h)) /\
  (exists m' v, create_sphere_uv r n m = Ok m' /\ volume m' = Ok v /\ Rabs (v - 4 / 3 * PI * (r * r * r)) <= (75 / (N * N) + tiny) * (Rabs r * Rabs r * Rabs r)) /\
  (exists m' v, create_torus rM rm n m = Ok m' /\ volume m' = Ok v /\ Rabs (v - 2 * (PI * PI) * rM * (rm * rm)) <= (710 / (N * N) + tiny) * ((Rabs rM + Rabs rm) * (rm * rm))).
Proof. exact round_smooth. Qed.
Print Assumptions C103_smooth.
(** Every face of a cylinder or sphere with at least six sides winds outwards, seen from the origin inside. *)
Theorem C103_outwards : forall (h r : R) (n : Z) (m : Mesh R), reach m -> (1 <= n)%Z -> 0 <= h -> 0 <= r ->
  (exists m' a, create_cylinder h r n m = Ok m' /\ shows m' a /\ forall f, In f (faces a) -> 0 <= vol_tri f) /\
  (exists m' a, create_sphere_uv r n m = Ok m' /\ shows m' a /\ forall f, In f (faces a) -> 0 <= vol_tri f).
Proof. exact round_outwards. Qed.
Print Assumptions C103_outwards.
Theorem C103_torus_outwards : forall (rM rm : R) (n : Z) (m : Mesh R), reach m -> (1 <= n)%Z -> 0 < rm < rM ->
  exists m' a, create_torus rM rm n m = Ok m' /\ shows m' a /\ forall f, In f (faces a) -> faces_out_of_tube rM rm f.
Proof. exact torus_outwards. Qed.
Print Assumptions C103_torus_outwards.
(** A hexagonal prism of radius 2 and height 5: 30 sqrt 3. *)
Example C103_case : reach (@mesh_new R) /\ (0 <= 1)%Z /\ prism_volume 6 2 5 = 30 * sqrt 3.
Proof.
  split; [apply R_new|]. split; [discriminate|]. unfold prism_volume, gon. replace (2 * PI / 6) with (PI / 3) by field. rewrite sin_PI3. field.
Qed.
