(** C117: the surface areas of the factory solids.  Only statements. *)
From Coq Require Import ZArith List Bool Reals Lra.
From Flocq Require Import Core.
From Verif Require Import Base Num MGeometry MKernel MMesh MMeshRun MMeasure MMeshFactory MF64 SMesh SReach SGeom SMeasure SMeshFac SRound SArea SErr SErrN SErrD SErrM LReach LArea LArea2 LArea3.
Import ListNotations.
Open Scope R_scope.

(** Cylinder: sides and caps of the prism, never more than the smooth cylinder; sizes of any sign. *)
Theorem C117_cylinder : forall (h r : R) (n : Z) (m : Mesh R), reach m -> (0 <= n)%Z -> let N := (2 + 4 * n)%Z in
  exists m' s, create_cylinder h r n m = Ok m' /\ surface m' = Ok s /\ Rabs (s - prism_area N r h) <= tiny * (r * r + Rabs (r * h)) /\
    s <= 2 * PI * (r * r + Rabs (r * h)) /\ 2 * PI * (r * r + Rabs (r * h)) - s <= (44 / (IZR N * IZR N) + tiny) * (r * r + Rabs (r * h)).
Proof. exact cylinder_area. Qed.
Print Assumptions C117_cylinder.
(** Sphere: at most the area of the ball, and the loss falls with the square of the number of meridians. *)
Theorem C117_sphere : forall (r : R) (n : Z) (m : Mesh R), reach m -> (0 <= n)%Z -> let N := IZR (2 + 4 * n) in
  exists m' s, create_sphere_uv r n m = Ok m' /\ surface m' = Ok s /\
    s <= 4 * PI * (r * r) /\ 4 * PI * (r * r) - s <= (154 / (N * N) + tiny) * (r * r).
Proof. exact sphere_area. Qed.
Print Assumptions C117_sphere.
(** Torus: the same, for a ring with a hole. *)
Theorem C117_torus : forall (rM rm : R) (n : Z) (m : Mesh R), reach m -> (0 <= n)%Z -> 0 <= rm <= rM -> let N := IZR (2 + 4 * n) in
  exists m' s, create_torus rM rm n m = Ok m' /\ surface m' = Ok s /\
    s <= 4 * (PI * PI) * (rM * rm) /\ 4 * (PI * PI) * (rM * rm) - s <= (564 / (N * N) + 2 * tiny) * (rM * rm).
Proof. exact torus_area. Qed.
Print Assumptions C117_torus.
(** The two regular solids with edges of length 2 tau d. *)
Theorem C117_icosahedron : forall (d : R) (m : Mesh R), reach m ->
  exists m', create_icosahedron d m = Ok m' /\ let s := 2 * tau * d in surface m' = Ok (5 * sqrt 3 * (s * s)).
Proof. exact icosahedron_area. Qed.
Print Assumptions C117_icosahedron.
Theorem C117_dodecahedron : forall (d : R) (m : Mesh R), reach m ->
  exists m', create_dodecahedron d m = Ok m' /\ let s := 2 * tau * d in surface m' = Ok (3 * sqrt (25 + 10 * sqrt 5) * (s * s)).
Proof. exact dodecahedron_area. Qed.
Print Assumptions C117_dodecahedron.
(** The same in doubles, for sizes up to 2^k and a cosine and sine within 2^-53: the measured areas are those of the smooth solids up to the share of the facets and rounding. *)
Theorem C117_doubles : forall (TR : Trig f64) (k n : Z) (m : Mesh f64) (h r rM rm : f64), good_trig TR -> (-190 <= k <= 190)%Z -> (0 <= n <= 2 ^ 20)%Z -> reach m ->
  fits k h -> fits k r -> fits k rM -> fits k rm -> 0 <= val rm <= val rM -> let N := IZR (2 + 4 * n) in let u := bpow radix2 (k - 53) in
  (exists m' s, create_cylinder h r n m = Ok m' /\ surface m' = Ok s /\ let x := val r * val r + Rabs (val r * val h) in
    close_to s (2 * PI * x) (44 / (N * N) * x + area_err (IZR (10 + 16 * n)) k (16 * u))) /\
  (exists m' s, create_sphere_uv r n m = Ok m' /\ surface m' = Ok s /\ let x := val r * val r in
    close_to s (4 * PI * x) (154 / (N * N) * x + area_err (IZR (2 * (4 * n + 2) * (2 * n + 1))) k (31 * u))) /\
  (exists m' s, create_torus rM rm n m = Ok m' /\ surface m' = Ok s /\ let x := val rM * val rm in
    close_to s (4 * (PI * PI) * x) (564 / (N * N) * x + area_err (IZR (2 * (4 * n + 2) * (2 * n + 6))) (k + 1) (46 * u))).
Proof. exact areas64. Qed.
Print Assumptions C117_doubles.
(** A hexagonal prism of radius 2 and height 5: six sides of 2 by 5 and two hexagons, 60 + 12 sqrt 3. *)
Example C117_case_doubles : good_trig correct_trig /\ reach (@mesh_new f64) /\ fits 2 (f64_ofZ 3) /\ fits 2 (f64_ofZ 4) /\ 0 <= val (f64_ofZ 3) <= val (f64_ofZ 4).
Proof. exact areas_case. Qed.
Example C117_case : reach (@mesh_new R) /\ (0 <= 1)%Z /\ 0 <= 1 <= 3 /\ prism_area 6 2 5 = 60 + 12 * sqrt 3.
Proof.
  split; [apply R_new|]. split; [discriminate|]. split; [lra|]. unfold prism_area, gon. cbn [Z.mul Pos.mul]. replace (2 * PI / 6) with (PI / 3) by field. replace (2 * PI / 12) with (PI / 6) by field.
  rewrite sin_PI3, sin_PI6, Rabs_pos_eq by lra. field.
Qed.
