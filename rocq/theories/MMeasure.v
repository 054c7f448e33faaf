(** Model of src/MeshMeasurements.cpp. *)
From Coq Require Import ZArith List Bool.
From Verif Require Import Base Num MGeometry MKernel MMesh.
Import ListNotations.
Open Scope Z_scope.

Section Measure.
Context {T : Type} {N : Num T}.
Implicit Types m : Mesh T.

(** The loop shape shared by MeshMeasurements.cpp:86-94, 104-112:
    accumulate over the triangles that are not unlinked. *)
Definition sum_triangles m (f : Triangle3 T -> res T) : res T :=
  for_ 0 (nb_triangles m)
    (fun i acc =>
       do u <- is_triangle_unlinked m i;
       if u then Ok acc else
       do t <- get_triangle m i;
       do x <- f t;
       Ok (nadd acc x)) n0.

(** MeshMeasurements.cpp:81-97 *)
Definition volume m : res T :=
  do v <- sum_triangles m (fun t => Ok (dot (t1 t) (orthogonal t)));
  ndiv v (nofZ 6).

(** MeshMeasurements.cpp:99-115 *)
Definition surface m : res T := sum_triangles m tri_surface.

(** The loop shape of MeshMeasurements.cpp:17-28 and 33-44: return false at the first linked
    triangle that fails the test; once false the remaining iterations are skipped. *)
Definition all_triangles m (f : Z -> res bool) : res bool :=
  for_ 0 (nb_triangles m)
    (fun i ok =>
       if negb ok then Ok ok else
       do u <- is_triangle_unlinked m i;
       if u then Ok ok else f i) true.

(** MeshMeasurements.cpp:14-29 *)
Definition has_no_degenerated_triangles m : res bool :=
  all_triangles m (fun i =>
    do t <- get_triangle m i;
    do s <- tri_surface t;
    Ok (negb (neqb s (nofZ 0)))).

(** MeshMeasurements.cpp:31-45 *)
Definition is_closed m : res bool :=
  all_triangles m (fun i =>
    do n <- get_near_triangles m i;
    let '(a, b, c) := n in
    Ok (negb ((a =? -1) || (b =? -1) || (c =? -1)))).

(** MeshMeasurements.cpp:47-50 *)
Definition is_oriented_outside m : res bool :=
  do v <- volume m; Ok (nleb (nofZ 0) v).

(** MeshMeasurements.cpp:52-79; the has_no_* helpers at 8-12 and 117-129 always return true. *)
Definition is_clean m : res bool :=
  do b <- has_no_degenerated_triangles m;
  if negb b then Ok false else
  do b <- is_oriented_outside m;
  if negb b then Ok false else
  do b <- is_closed m;
  if negb b then Ok false else Ok true.

End Measure.
