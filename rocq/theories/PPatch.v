(** Property C120: quadratic Bezier patches and the smooth sphere in doubles.  Only statements. *)
From Coq Require Import ZArith List Bool Reals.
From Flocq Require Import Core.
From Verif Require Import Base Num MGeometry MMesh MBezier MStl MF64 SMesh SReach SGeom SMeasure SBezier SErr SErrN SPatch LPatch2 LPatch3 LPatch4.
Import ListNotations.
Open Scope R_scope.

(** eval with the third parameter left out never fails on the triangle of parameters and is within 2^(k+j-i-44) of the exact patch. *)
Theorem C120_point : forall (k i j : Z) (q : QBT f64) (s u : f64), patch_sizes k i j -> patch_within k i j q -> fin s -> fin u -> 0 <= val s -> 0 <= val u -> val s + val u <= 1 ->
  exists p, qbt_eval q s u (- n1)%num = Ok p /\ close_pt p (patch_pt (val_patch q) (val s) (val u)) (patch_err k i j).
Proof. exact eval_doubles. Qed.
Print Assumptions C120_point.

(** The same with the third parameter given. *)
Theorem C120_point_given : forall (k i j : Z) (q : QBT f64) (s u v : f64), patch_sizes k i j -> patch_within k i j q -> fin s -> fin u -> fin v -> 0 <= val s -> 0 <= val u -> 0 <= val v -> val s + val u + val v = 1 ->
  exists p, qbt_eval q s u v = Ok p /\ close_pt p (patch_pt (val_patch q) (val s) (val u)) (patch_err k i j).
Proof. exact eval_given. Qed.
Print Assumptions C120_point_given.

(** With unit weights the corners are met without any error. *)
Theorem C120_corners : forall (k : Z) (q : QBT f64), (-900 <= k <= 900)%Z -> Forall (fits_pt k) [qP1 q; qP2 q; qP3 q; qC12 q; qC13 q; qC23 q] -> patch_units q ->
  exists p1 p2 p3, qbt_eval q n1 n0 (- n1)%num = Ok p1 /\ same_place p1 (qP1 q) /\ qbt_eval q n0 n1 (- n1)%num = Ok p2 /\ same_place p2 (qP2 q) /\ qbt_eval q n0 n0 (- n1)%num = Ok p3 /\ same_place p3 (qP3 q).
Proof. exact corners_exact. Qed.
Print Assumptions C120_corners.

(** add_to_mesh in doubles: the vertices are near the exact grid, row by row, and the triangles are those of C67. *)
Theorem C120_add_to_mesh : forall (k i j : Z) (q : QBT f64) (n : Z) (m : Mesh f64) (a : AMesh f64), patch_sizes k i j -> patch_within k i j q -> (1 <= n <= 2 ^ 50)%Z -> reach m -> shows m a ->
  exists m' ps ts, qbt_add_to_mesh q m n = Ok m' /\ reach m' /\ shows m' (with_tris (with_verts a ps) ts) /\
    Forall2 (fun p x => close_pt p x (patch_err k i j)) ps (grid n (fun x y => patch_pt (val_patch q) (IZR x / IZR n) (IZR y / IZR n))) /\
    len ts = patch_count n /\
    forall t, In t ts -> exists i1 j1 i2 j2 i3 j3, on_grid n i1 j1 /\ on_grid n i2 j2 /\ on_grid n i3 j3 /\
      t = (nb_vertices m + rank n i1 j1, nb_vertices m + rank n i2 j2, nb_vertices m + rank n i3 j3)%Z /\
      ((i2 - i1) * (j3 - j1) - (i3 - i1) * (j2 - j1) = -1)%Z.
Proof. exact mesh_doubles. Qed.
Print Assumptions C120_add_to_mesh.

(** The smooth sphere: every point computed is within 2^(k-44) of a point in the shell that C69_sphere_near gives for exact numbers. *)
Theorem C120_sphere : forall (k : Z) (d : f64) (sm : SmoothMesh f64) (q : QBT f64) (s u : f64), (-400 <= k <= 400)%Z -> fits k d -> In q (sm_sphere d sm) -> fin s -> fin u -> 0 <= val s -> 0 <= val u -> val s + val u <= 1 ->
  exists p x, qbt_eval q s u (- n1)%num = Ok p /\ close_pt p x (bpow radix2 (k - 44)) /\ 25 / 27 * (val d * val d) <= sq_dist x <= 9 / 8 * (val d * val d).
Proof. exact sphere_doubles. Qed.
Print Assumptions C120_sphere.

(** Neighbouring patches do not meet in doubles: at the grid point (1, 2) of three segments, on the edge that two octants of the unit sphere share, one is above the plane z = 0 and the other below. *)
Theorem C120_edges_meet_refuted : exists (q r : QBT f64) (s u : f64), In q (sm_sphere n1 []) /\ In r (sm_sphere n1 []) /\ qP1 q = qP1 r /\ qP2 q = qP2 r /\ qC12 q = qC12 r /\
  ndiv (nofZ 1) (nofZ 3) = Ok s /\ ndiv (nofZ 2) (nofZ 3) = Ok u /\
  exists p p', qbt_eval q s u (- n1)%num = Ok p /\ qbt_eval r s u (- n1)%num = Ok p' /\ val (pz p') < 0 < val (pz p).
Proof. exact crack. Qed.
Print Assumptions C120_edges_meet_refuted.

(** The octant of the unit sphere at the parameters 1/2, 0, and an empty mesh, meet the hypotheses. *)
Example C120_case : patch_sizes 0 0 0 /\ patch_within 0 0 0 (sphere_patch n1 n1 n1 : QBT f64) /\ patch_units (sphere_patch n1 n1 n1) /\ In (sphere_patch n1 n1 n1) (sm_sphere (n1 : f64) []) /\ fits 0 (n1 : f64) /\
  fin half64 /\ fin (n0 : f64) /\ val half64 = 1 / 2 /\ val (n0 : f64) = 0 /\ reach (@mesh_new f64) /\ shows (@mesh_new f64) (mkA [] [] (-1)).
Proof. exact patch_case. Qed.
