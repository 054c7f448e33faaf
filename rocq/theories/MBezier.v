(** Model of src/BezierUtil.cpp, src/QuadBezierTriangle.cpp, src/CubicBezierTriangles.cpp,
    src/SmoothMesh.cpp and src/SmoothMeshFactory.cpp. *)
From Coq Require Import ZArith List Bool.
From Verif Require Import Base Num MGeometry MKernel MMesh SMesh MMeshRun MMeshFactory.
Import ListNotations.
Open Scope Z_scope.

(** QuadBezierTriangle.h:23-30 (_P1.._P3, the three control points, the six weights) *)
Record QBT (T : Type) := mkQBT
  { qP1 : Point3 T; qP2 : Point3 T; qP3 : Point3 T; qC12 : Point3 T; qC13 : Point3 T; qC23 : Point3 T;
    qw1 : T; qw2 : T; qw3 : T; qw12 : T; qw13 : T; qw23 : T }.
Arguments mkQBT {T}. Arguments qP1 {T}. Arguments qP2 {T}. Arguments qP3 {T}. Arguments qC12 {T}. Arguments qC13 {T}. Arguments qC23 {T}.
Arguments qw1 {T}. Arguments qw2 {T}. Arguments qw3 {T}. Arguments qw12 {T}. Arguments qw13 {T}. Arguments qw23 {T}.

(** CubicBezierTriangles.h:22-26 *)
Record CBT (T : Type) := mkCBT
  { cP1 : Point3 T; cP2 : Point3 T; cP3 : Point3 T; c12 : Point3 T; c21 : Point3 T; c13 : Point3 T; c31 : Point3 T;
    c23 : Point3 T; c32 : Point3 T; ccenter : Point3 T }.
Arguments mkCBT {T}. Arguments cP1 {T}. Arguments cP2 {T}. Arguments cP3 {T}. Arguments c12 {T}. Arguments c21 {T}. Arguments c13 {T}.
Arguments c31 {T}. Arguments c23 {T}. Arguments c32 {T}. Arguments ccenter {T}.

Section Bezier.
Context {T : Type} {N : Num T}.
Implicit Types (q : QBT T) (m : Mesh T).

(** BezierUtil.cpp:3-11 *)
Definition square (a : T) : T := (a * a)%num.
Definition cubic (a : T) : T := (a * a * a)%num.
(** BezierUtil.cpp:13-56 *)
Definition Bernstein01 (u : T) : T := (n1 - u)%num.
Definition Bernstein11 (u : T) : T := u.
Definition Bernstein02 (u : T) : T := square (n1 - u)%num.
Definition Bernstein12 (u : T) : T := (n2 * u * (n1 - u))%num.
Definition Bernstein22 (u : T) : T := square u.
Definition Bernstein03 (u : T) : T := cubic (n1 - u)%num.
Definition Bernstein13 (u : T) : T := (nofZ 3 * u * square (n1 - u))%num.
Definition Bernstein23 (u : T) : T := (nofZ 3 * square u * (n1 - u))%num.
Definition Bernstein33 (u : T) : T := cubic u.

(** ** QuadBezierTriangle *)
(** QuadBezierTriangle.cpp:6-10; the points are default constructed, Geometry.cpp:11-14 *)
Definition qbt_new : QBT T := mkQBT P0 P0 P0 P0 P0 P0 n1 n1 n1 n1 n1 n1.
(** QuadBezierTriangle.cpp:15-24 *)
Definition qbt_set_points q (P1 P2 P3 : Point3 T) : QBT T :=
  let h := nlit 1 2 in
  mkQBT P1 P2 P3 (pmul (padd P1 P2) h) (pmul (padd P1 P3) h) (pmul (padd P2 P3) h)
    (qw1 q) (qw2 q) (qw3 q) (qw12 q) (qw13 q) (qw23 q).
(** QuadBezierTriangle.cpp:26-31 *)
Definition qbt_set_control_points q (C12 C13 C23 : Point3 T) : QBT T :=
  mkQBT (qP1 q) (qP2 q) (qP3 q) C12 C13 C23 (qw1 q) (qw2 q) (qw3 q) (qw12 q) (qw13 q) (qw23 q).
(** QuadBezierTriangle.cpp:33-42 *)
Definition qbt_set_weights q (w1 w2 w3 w12 w13 w23 : T) : QBT T :=
  mkQBT (qP1 q) (qP2 q) (qP3 q) (qC12 q) (qC13 q) (qC23 q) w1 w2 w3 w12 w13 w23.
(** QuadBezierTriangle.cpp:44-69; the default argument is v = -1. *)
Definition qbt_eval q (s u v : T) : res (Point3 T) :=
  let v := if (v =? - n1)%num then (n1 - s - u)%num else v in
  let p := padd (padd (padd (padd (padd
    (pmul (pmul (pmul (qP1 q) (qw1 q)) s) s)
    (pmul (pmul (pmul (qP2 q) (qw2 q)) u) u))
    (pmul (pmul (pmul (qP3 q) (qw3 q)) v) v))
    (pmul (pmul (pmul (pmul (qC12 q) (qw12 q)) n2) s) u))
    (pmul (pmul (pmul (pmul (qC13 q) (qw13 q)) n2) s) v))
    (pmul (pmul (pmul (pmul (qC23 q) (qw23 q)) n2) u) v) in
  let w := (qw1 q * s * s + qw2 q * u * u + qw3 q * v * v +
            qw12 q * n2 * s * u + qw13 q * n2 * s * v + qw23 q * n2 * u * v)%num in
  pdiv p w.
(** QuadBezierTriangle.cpp:71-105; [pos] is the second component of the loop state. *)
Definition qbt_add_to_mesh q m (n : Z) : res (Mesh T) :=
  let iNbVertices := nb_vertices m in
  do m <- for_ 0 (n + 1) (fun is m =>
    do s <- ndiv (nofZ is) (nofZ n);
    for_ 0 (n - is + 1) (fun iu m =>
      do u <- ndiv (nofZ iu) (nofZ n);
      do p <- qbt_eval q s u (- n1)%num;
      run_ops m [OpAddVertex p]) m) m;
  do r <- for_ 0 n (fun is (st : Mesh T * Z) =>
    let '(m, pos) := st in
    let lineSize := n - is + 1 in
    do m <- run_ops m [OpAddTriangle pos (pos + 1) (pos + lineSize)];
    let pos := pos + lineSize in
    do m <- for_ 1 (lineSize - 4 + 1) (fun iu m =>
      run_ops m [OpAddTriangle (pos + iu) (pos + iu + lineSize) (pos + iu + lineSize - 1);
                 OpAddTriangle (pos + iu) (pos + iu + 1) (pos + iu + lineSize)]) m;
    Ok (m, pos)) (m, iNbVertices);
  Ok (fst r).
(** QuadBezierTriangle.cpp:107-116; a Transform is the function it applies (MTransform.v) *)
Definition qbt_apply_transform q (f : Point3 T -> Point3 T) : QBT T :=
  mkQBT (f (qP1 q)) (f (qP2 q)) (f (qP3 q)) (f (qC12 q)) (f (qC13 q)) (f (qC23 q))
    (qw1 q) (qw2 q) (qw3 q) (qw12 q) (qw13 q) (qw23 q).

(** ** CubicBezierTriangles.  clear() and add_to_mesh() are declared (CubicBezierTriangles.h:12, 19) but never defined. *)
(** CubicBezierTriangles.cpp:4-6 *)
Definition cbt_new : CBT T := mkCBT P0 P0 P0 P0 P0 P0 P0 P0 P0 P0.
(** CubicBezierTriangles.cpp:13-18 *)
Definition cbt_set_points (c : CBT T) (P1 P2 P3 : Point3 T) : CBT T :=
  mkCBT P1 P2 P3 (c12 c) (c21 c) (c13 c) (c31 c) (c23 c) (c32 c) (ccenter c).
(** CubicBezierTriangles.cpp:20-30 *)
Definition cbt_set_control_points (c : CBT T) (p12 p21 p13 p31 p23 p32 : Point3 T) : CBT T :=
  mkCBT (cP1 c) (cP2 c) (cP3 c) p12 p21 p13 p31 p23 p32 (ccenter c).
(** CubicBezierTriangles.cpp:32-35 *)
Definition cbt_set_control_center (c : CBT T) (p : Point3 T) : CBT T :=
  mkCBT (cP1 c) (cP2 c) (cP3 c) (c12 c) (c21 c) (c13 c) (c31 c) (c23 c) (c32 c) p.
(** CubicBezierTriangles.cpp:42-43, 45-46, 48-49, 51-52, 54-55, 57-58: the control point near [P] of the edge to [Q] *)
Definition pn_edge (P Q n : Point3 T) : res (Point3 T) :=
  let w := dot (psub Q P) n in
  pdiv (psub (padd (padd P P) Q) (pmul n w)) (nofZ 3).
(** CubicBezierTriangles.cpp:37-64 *)
Definition cbt_set_normals (c : CBT T) (N1 N2 N3 : Point3 T) : res (CBT T) :=
  let P1 := cP1 c in let P2 := cP2 c in let P3 := cP3 c in
  do p12 <- pn_edge P1 P2 N1;
  do p21 <- pn_edge P2 P1 N2;
  do p13 <- pn_edge P1 P3 N1;
  do p31 <- pn_edge P3 P1 N3;
  do p23 <- pn_edge P2 P3 N2;
  do p32 <- pn_edge P3 P2 N3;
  do E <- pdiv (padd (padd (padd (padd (padd p12 p21) p13) p31) p23) p32) (nofZ 6);
  do V <- pdiv (padd (padd P1 P2) P3) (nofZ 3);
  do H <- pdiv (psub E V) n2;
  Ok (mkCBT P1 P2 P3 p12 p21 p13 p31 p23 p32 (padd E H)).

(** ** SmoothMesh, a vector of patches (SmoothMesh.h:68) *)
Definition SmoothMesh := list (QBT T).
Implicit Types sm : SmoothMesh.
(** SmoothMesh.cpp:9-10 *)
Definition sm_new : SmoothMesh := [].
(** SmoothMesh.cpp:30-33 *)
Definition sm_add_triangle sm q : SmoothMesh := vpush sm q.
(** SmoothMesh.cpp:35-43; _vst[i] is not checked *)
Definition sm_triangle sm (i : Z) : res (QBT T) := vget sm i.
Definition sm_nb_triangles sm : Z := vsize sm.
(** SmoothMesh.cpp:68-71 *)
Definition sm_clear sm : SmoothMesh := [].
(** SmoothMesh.cpp:52-58, source and destination are different objects *)
Definition sm_add_mesh sm (src : SmoothMesh) : res SmoothMesh :=
  for_ 0 (sm_nb_triangles src) (fun i sm => do q <- sm_triangle src i; Ok (vpush sm q)) sm.
(** SmoothMesh.cpp:52-58 on the object itself: the bound of the loop is read again at every turn. *)
Definition sm_add_self (fuel : nat) sm : res SmoothMesh :=
  do r <- while_ fuel (fun s : Z * SmoothMesh => Ok (fst s <? sm_nb_triangles (snd s)))
            (fun s => do q <- sm_triangle (snd s) (fst s); Ok (fst s + 1, vpush (snd s) q)) (0, sm);
  Ok (snd r).
(** SmoothMesh.cpp:45-50; and 12-15: the copy constructor is an assignment to a new object *)
Definition sm_assign sm (src : SmoothMesh) : res SmoothMesh := sm_add_mesh (sm_clear sm) src.
Definition sm_assign_self (fuel : nat) sm : res SmoothMesh := sm_add_self fuel (sm_clear sm).
Definition sm_copy (src : SmoothMesh) : res SmoothMesh := sm_assign sm_new src.
(** SmoothMesh.cpp:60-66 *)
Definition sm_add_to_mesh sm m (n : Z) : res (Mesh T) :=
  for_ 0 (vsize sm) (fun i m => do q <- vget sm i; qbt_add_to_mesh q m n) m.
(** SmoothMesh.cpp:73-80 *)
Definition sm_apply_transform sm (f : Point3 T -> Point3 T) : res SmoothMesh :=
  for_ 0 (sm_nb_triangles sm) (fun i sm => do q <- vget sm i; vset sm i (qbt_apply_transform q f)) sm.
(** SmoothMesh.cpp:82-87 *)
Definition sm_flat_triangle sm (p1 p2 p3 : Point3 T) : SmoothMesh :=
  sm_add_triangle sm (qbt_set_points qbt_new p1 p2 p3).
(** SmoothMesh.cpp:89-97 *)
Definition sm_flat_quad sm (p1 p2 p3 p4 : Point3 T) : SmoothMesh :=
  let st := qbt_set_points qbt_new p1 p2 p3 in
  let sm := sm_add_triangle sm st in
  sm_add_triangle sm (qbt_set_points st p1 p3 p4).
(** SmoothMesh.cpp:100-105 *)
Definition sm_flat_pentagon sm (p1 p2 p3 p4 p5 : Point3 T) : SmoothMesh :=
  let sm := sm_flat_triangle sm p1 p2 p3 in
  let sm := sm_flat_triangle sm p3 p4 p5 in
  sm_flat_triangle sm p1 p3 p5.

(** ** SmoothMeshFactory *)
(** Calls of add_flat_triangle, add_flat_quad, add_flat_pentagon with the points numbered as in the C++. *)
Definition flat_t (ps : list (Point3 T)) sm (t : Z * Z * Z) : res SmoothMesh :=
  let '(a, b, c) := t in
  do p1 <- vget ps a; do p2 <- vget ps b; do p3 <- vget ps c; Ok (sm_flat_triangle sm p1 p2 p3).
Definition flat_q (ps : list (Point3 T)) sm (t : Z * Z * Z * Z) : res SmoothMesh :=
  let '(a, b, c, d) := t in
  do p1 <- vget ps a; do p2 <- vget ps b; do p3 <- vget ps c; do p4 <- vget ps d; Ok (sm_flat_quad sm p1 p2 p3 p4).
Definition flat_p (ps : list (Point3 T)) sm (t : Z * Z * Z * Z * Z) : res SmoothMesh :=
  let '(a, b, c, d, e) := t in
  do p1 <- vget ps a; do p2 <- vget ps b; do p3 <- vget ps c; do p4 <- vget ps d; do p5 <- vget ps e;
  Ok (sm_flat_pentagon sm p1 p2 p3 p4 p5).
Fixpoint each {A} (f : SmoothMesh -> A -> res SmoothMesh) sm (l : list A) : res SmoothMesh :=
  match l with [] => Ok sm | x :: l => do sm <- f sm x; each f sm l end.

(** SmoothMeshFactory.cpp:13-26 *)
Definition sm_tetrahedron (d : T) sm : res SmoothMesh :=
  each (flat_t [mkP d d d; mkP (- d)%num (- d)%num d; mkP d (- d)%num (- d)%num; mkP (- d)%num d (- d)%num])
    (sm_clear sm) [(0, 1, 2); (1, 3, 2); (0, 3, 1); (0, 2, 3)].
(** SmoothMeshFactory.cpp:28-51 *)
Definition sm_box (xSize ySize zSize : T) sm : res SmoothMesh :=
  do x <- ndiv xSize n2; do y <- ndiv ySize n2; do z <- ndiv zSize n2;
  each (flat_q [mkP x y z; mkP (- x)%num y z; mkP (- x)%num (- y)%num z; mkP x (- y)%num z;
                mkP x y (- z)%num; mkP (- x)%num y (- z)%num; mkP (- x)%num (- y)%num (- z)%num; mkP x (- y)%num (- z)%num])
    (sm_clear sm) [(0, 1, 2, 3); (7, 6, 5, 4); (4, 5, 1, 0); (3, 2, 6, 7); (5, 6, 2, 1); (0, 3, 7, 4)].
(** SmoothMeshFactory.cpp:54-73 *)
Definition sm_octahedron (d : T) sm : res SmoothMesh :=
  each (flat_t [mkP d n0 n0; mkP n0 d n0; mkP n0 n0 d; mkP (- d)%num n0 n0; mkP n0 (- d)%num n0; mkP n0 n0 (- d)%num])
    (sm_clear sm) [(0, 1, 2); (1, 0, 5); (2, 1, 3); (0, 2, 4); (4, 3, 5); (3, 4, 2); (5, 3, 1); (4, 5, 0)].
(** SmoothMeshFactory.cpp:75-127 *)
Definition sm_dodecahedron (d : T) sm : res SmoothMesh :=
  do s5 <- nsqrt (nofZ 5);
  do t1 <- ndiv (s5 + n1)%num n2;
  do t2 <- ndiv n1 t1;
  let u := d in
  let t1 := (t1 * d)%num in let t2 := (t2 * d)%num in
  each (flat_p
    [mkP u u u; mkP u u (- u)%num; mkP u (- u)%num u; mkP u (- u)%num (- u)%num;
     mkP (- u)%num u u; mkP (- u)%num u (- u)%num; mkP (- u)%num (- u)%num u; mkP (- u)%num (- u)%num (- u)%num;
     mkP n0 t1 t2; mkP n0 t1 (- t2)%num; mkP n0 (- t1)%num t2; mkP n0 (- t1)%num (- t2)%num;
     mkP t2 n0 t1; mkP t2 n0 (- t1)%num; mkP (- t2)%num n0 t1; mkP (- t2)%num n0 (- t1)%num;
     mkP t1 t2 n0; mkP t1 (- t2)%num n0; mkP (- t1)%num t2 n0; mkP (- t1)%num (- t2)%num n0])
    (sm_clear sm)
    [(0, 12, 2, 17, 16); (19, 18, 5, 15, 7); (12, 0, 8, 4, 14); (13, 3, 11, 7, 15); (2, 12, 14, 6, 10); (9, 1, 13, 15, 5);
     (18, 19, 6, 14, 4); (3, 13, 1, 16, 17); (1, 9, 8, 0, 16); (19, 7, 11, 10, 6); (18, 4, 8, 9, 5); (2, 10, 11, 3, 17)].
(** SmoothMeshFactory.cpp:130-179 *)
Definition sm_icosahedron (d : T) sm : res SmoothMesh :=
  do s5 <- nsqrt (nofZ 5);
  do t <- ndiv (s5 - n1)%num n2;
  let u := d in let t := (t * d)%num in
  each (flat_t
    [mkP u n0 t; mkP u n0 (- t)%num; mkP (- u)%num n0 t; mkP (- u)%num n0 (- t)%num;
     mkP n0 t u; mkP n0 (- t)%num u; mkP n0 t (- u)%num; mkP n0 (- t)%num (- u)%num;
     mkP t u n0; mkP (- t)%num u n0; mkP t (- u)%num n0; mkP (- t)%num (- u)%num n0])
    (sm_clear sm)
    [(0, 1, 8); (0, 10, 1); (2, 3, 11); (2, 9, 3); (4, 5, 0); (4, 2, 5); (6, 7, 3); (6, 1, 7); (8, 9, 4); (8, 6, 9); (10, 11, 7);
     (10, 5, 11); (0, 8, 4); (3, 7, 11); (10, 0, 5); (9, 6, 3); (1, 6, 8); (2, 11, 5); (2, 4, 9); (1, 10, 7)].
(** SmoothMeshFactory.cpp:186-191 and the seven similar blocks: one patch with the signs of its octant *)
Definition sphere_patch (dx dy dz : T) : QBT T :=
  qbt_set_control_points (qbt_set_points qbt_new (mkP dx n0 n0) (mkP n0 dy n0) (mkP n0 n0 dz))
    (mkP dx dy n0) (mkP dx n0 dz) (mkP n0 dy dz).
(** SmoothMeshFactory.cpp:181-241 *)
Definition sm_sphere (d : T) sm : SmoothMesh :=
  let e := (- d)%num in
  fold_left sm_add_triangle
    [sphere_patch d d d; sphere_patch e d d; sphere_patch d e d; sphere_patch d d e;
     sphere_patch e e d; sphere_patch e e e; sphere_patch e d e; sphere_patch d e e] (sm_clear sm).

End Bezier.
Arguments SmoothMesh T : clear implicits.
