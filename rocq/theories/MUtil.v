(** Models of src/MeshUtil.cpp, src/MeshTessellate.cpp and src/MeshBoolean.cpp. *)
From Coq Require Import ZArith List Bool.
From Verif Require Import Base Num MGeometry MKernel MMesh.
Import ListNotations.
Open Scope Z_scope.

Section Util.
Context {T : Type} {N : Num T}.
Implicit Types m : Mesh T.

(** MeshUtil.cpp:28-35 and 49-56: the quads of a iSizeX x iSizeY grid *)
Definition grid_quads (sx sy : Z) m : res (Mesh T) :=
  for_ 0 (sy - 1) (fun j m =>
    for_ 0 (sx - 1) (fun i m =>
      add_quad m (i + sx * j) ((i + 1) + sx * j) ((i + 1) + sx * (j + 1)) (i + sx * (j + 1))) m) m.

(** MeshUtil.cpp:13-36.  The product is an int. (The C++ compares int with size_t in the assert; sizes are non-negative.) *)
Definition create_from_z (vz : list T) (sx sy : Z) m : res (Mesh T) :=
  let m := clear m in
  do n <- iint (sx * sy);
  do _ <- massert (n =? vsize vz);
  do r <- for_ 0 sy (fun y s =>
            for_ 0 sx (fun x s =>
              do z <- vget vz (fst s);
              Ok (fst s + 1, fst (add_vertex (snd s) (mkP (nofZ x) (nofZ y) z)))) s) (0, m);
  grid_quads sx sy (snd r).

(** MeshUtil.cpp:38-57 *)
Definition create_from_grid (vp : list (Point3 T)) (sx sy : Z) m : res (Mesh T) :=
  let m := clear m in
  do n <- iint (sx * sy);
  do _ <- massert (n =? vsize vp);
  do m <- for_ 0 sy (fun j m =>
            for_ 0 sx (fun i m =>
              do p <- vget vp (i + sx * j); Ok (fst (add_vertex m p))) m) m;
  grid_quads sx sy m.

(** MeshUtil.cpp:67-84: alias detection (note that [continue] keeps the last close vertex) *)
Definition merge_alias m (tolSq : T) : res (list Z) :=
  let n := nb_vertices m in
  for_ 0 n (fun i al =>
    do v1 <- get_vertex m i;
    for_ 0 i (fun j al =>
      do aj <- vget al j;
      if 0 <=? aj then Ok al else
      do v2 <- get_vertex m j;
      if nltb (distance_square v1 v2) tolSq then vset al i j else Ok al) al)
    (repeat (-1) (Z.to_nat n)).

(** MeshUtil.cpp:90-105: re-add the kept vertices *)
Definition merge_readd (mOld : Mesh T) (al : list Z) m : res (list Z * Mesh T) :=
  for_ 0 (vsize al) (fun i s =>
    let '(al, m) := s in
    do ai <- vget al i;
    if ai =? -1 then
      do p <- get_vertex mOld i;
      let '(m, iv) := add_vertex m p in
      do al <- vset al i iv; Ok (al, m)
    else
      do ia <- vget al ai;
      do al <- vset al i ia; Ok (al, m)) (al, m).

(** MeshUtil.cpp:107-126 *)
Definition merge_triangles (mOld : Mesh T) (al : list Z) m : res (Mesh T) :=
  for_ 0 (nb_triangles mOld) (fun i m =>
    do u <- is_triangle_unlinked mOld i;
    if u then Ok m else
    do v <- get_triangle_vertices mOld i;
    let '(i1, i2, i3) := v in
    do a <- vget al i1; do b <- vget al i2; do c <- vget al i3;
    do _ <- massert (a <? nb_vertices m);
    do _ <- massert (b <? nb_vertices m);
    do _ <- massert (c <? nb_vertices m);
    do r <- add_triangle m a b c; Ok (fst r)) m.

(** MeshUtil.cpp:59-127 *)
Definition merge_vertices m (tol : T) : res (Mesh T) :=
  do al <- merge_alias m (nmul tol tol);
  do mOld <- copy_mesh m;
  let m := clear m in
  do r <- merge_readd mOld al m;
  merge_triangles mOld (fst r) (snd r).

(** MeshUtil.cpp:129-157 *)
Definition remove_empty_triangles m (tol : T) : res (Mesh T) :=
  for_ 0 (nb_triangles m) (fun i m =>
    do u <- is_triangle_unlinked m i;
    if u then Ok m else
    do t <- get_triangle m i;
    if nltb (norm_square (psub (t1 t) (t2 t))) (nmul tol tol) then unlink_triangle m i else
    if nltb (norm_square (psub (t2 t) (t3 t))) (nmul tol tol) then unlink_triangle m i else
    if nltb (norm_square (psub (t3 t) (t1 t))) (nmul tol tol) then unlink_triangle m i else
    Ok m) m.

(** MeshTessellate.cpp:50-56 *)
Definition interpolate (a b c : Point3 T) (u v n : Z) : res (Point3 T) :=
  do tu <- ndiv (nofZ u) (nofZ n);
  do tv <- ndiv (nofZ v) (nofZ n);
  Ok (padd (padd a (pmul (psub b a) tu)) (pmul (psub c a) tv)).

(** MeshTessellate.cpp:27-47: the stripes of one triangle *)
Definition tessellate_triangle (a b c : Point3 T) (n : Z) m : res (Mesh T) :=
  for_ 0 n (fun stripe m =>
    do p1x <- interpolate a b c stripe 0 n;
    do p2x <- interpolate a b c (stripe + 1) 0 n;
    do p3x <- interpolate a b c stripe 1 n;
    do r <- add_triangle_points m p1x p2x p3x;
    for_ 0 stripe (fun j m =>
      do p1 <- interpolate a b c (stripe - j) j n;
      do p2 <- interpolate a b c (stripe - j) (j + 1) n;
      do p3 <- interpolate a b c (stripe - j - 1) (j + 1) n;
      do p4 <- interpolate a b c (stripe - j - 1) (j + 2) n;
      do r <- add_triangle_points m p1 p2 p3;
      do r <- add_triangle_points (fst r) p3 p2 p4;
      Ok (fst r)) (fst r)) m.

(** MeshTessellate.cpp:10-48, meshOut different from meshIn *)
Definition tessellate (mIn : Mesh T) (n : Z) (mOut : Mesh T) : res (Mesh T) :=
  for_ 0 (nb_triangles mIn) (fun i m =>
    do u <- is_triangle_unlinked mIn i;
    if u then Ok m else
    do v <- get_triangle_vertices mIn i;
    let '(ia, ib, ic) := v in
    do a <- get_vertex mIn ia;
    do b <- get_vertex mIn ib;
    do c <- get_vertex mIn ic;
    tessellate_triangle a b c n m) (clear mOut).

(** MeshBoolean.cpp:7-39; returns (Aoutside, Boutside); AInB and BInA are not touched.
    The four output meshes are assumed not to alias the inputs. *)
Definition split_meshes (A B : Mesh T) : res (Mesh T * Mesh T) :=
  do Ao <- copy_mesh A;
  do Bo <- copy_mesh B;
  for_ 0 (nb_triangles A) (fun i s =>
    do u <- is_triangle_unlinked A i;
    if u then Ok s else
    do tA <- get_triangle A i;
    for_ 0 (nb_triangles B) (fun j s =>
      do u <- is_triangle_unlinked B j;
      if u then Ok s else
      do tB <- get_triangle B j;
      if negb (box_intersect (box_of_triangle tA) (box_of_triangle tB)) then Ok s else
      do Ao <- split_triangle (fst s) i tB;
      do Bo <- split_triangle (snd s) j tA;
      Ok (Ao, Bo)) s) (Ao, Bo).

End Util.
