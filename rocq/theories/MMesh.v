(** Model of src/Mesh.h and src/Mesh.cpp. *)
From Coq Require Import ZArith List Bool.
From Verif Require Import Base Num MGeometry MKernel.
Import ListNotations.
Open Scope Z_scope.

(** Mesh.h:55-57. The kernel pointer is modelled by the kernel value; pointer identity is
    modelled separately in MHeap.v. *)
Record Mesh (T : Type) := mkMesh { mkern : Kernel T; mcolor : Z }.
Arguments mkMesh {T}. Arguments mkern {T}. Arguments mcolor {T}.

Section Mesh.
Context {T : Type} {N : Num T}.
Implicit Types m : Mesh T.

(** Mesh.cpp:15-21 *)
Definition mesh_new : Mesh T := mkMesh k_empty (-1).

(** Mesh.cpp:33-46, 335-338, 304-307 *)
Definition set_color m (c : Z) : Mesh T := mkMesh (mkern m) c.
Definition get_color m : Z := mcolor m.
Definition nb_triangles m : Z := k_nbt (mkern m).
Definition nb_vertices m : Z := k_nbv (mkern m).
Definition mesh_is_empty m : bool := nb_triangles m =? 0.

(** Mesh.cpp:48-61 *)
Definition is_triangle_unlinked m (i : Z) : res bool :=
  do _ <- massert (in_range i (nb_triangles m)); k_is_unlinked (mkern m) i.
Definition get_near_triangles m (i : Z) : res (Z * Z * Z) :=
  do _ <- massert (in_range i (nb_triangles m)); k_get_near (mkern m) i.

(** Mesh.cpp:81-87 *)
Definition get_triangle_vertices m (i : Z) : res (Z * Z * Z) :=
  do _ <- massert (in_range i (nb_triangles m)); k_get_triangle_vertices (mkern m) i.

(** Mesh.cpp:327-333 *)
Definition get_vertex m (i : Z) : res (Point3 T) :=
  do _ <- massert (in_range i (nb_vertices m)); k_get_vertex (mkern m) i.

(** Mesh.cpp:63-79 and 89-100 (get_triangle and the Point3 overload of get_triangle_vertices
    read the same three points) *)
Definition get_triangle m (i : Z) : res (Triangle3 T) :=
  do _ <- massert (in_range i (nb_triangles m));
  do v <- get_triangle_vertices m i;
  let '(i1, i2, i3) := v in
  do v1 <- k_get_vertex (mkern m) i1;
  do v2 <- k_get_vertex (mkern m) i2;
  do v3 <- k_get_vertex (mkern m) i3;
  Ok (mkTri v1 v2 v3).

(** Mesh.cpp:102-108 *)
Definition unlink_triangle m (i : Z) : res (Mesh T) :=
  do _ <- massert (in_range i (nb_triangles m));
  do k <- k_unlink (mkern m) i; Ok (mkMesh k (mcolor m)).

(** Mesh.cpp:309-317 *)
Definition add_vertex m (p : Point3 T) : Mesh T * Z :=
  let '(k, i) := k_add_vertex (mkern m) p in (mkMesh k (mcolor m), i).

(** Mesh.cpp:319-325 *)
Definition set_vertex m (i : Z) (p : Point3 T) : res (Mesh T) :=
  do _ <- massert (in_range i (nb_vertices m));
  do k <- k_set_vertex (mkern m) i p; Ok (mkMesh k (mcolor m)).

(** [_pKernel->add_triangle(a,b,c)] with the result ignored or returned *)
Definition kern_add_triangle m (a b c : Z) : res (Mesh T * Z) :=
  do r <- k_add_triangle (mkern m) a b c; Ok (mkMesh (fst r) (mcolor m), snd r).

(** Mesh.cpp:145-156 *)
Definition add_triangle m (a b c : Z) : res (Mesh T * Z) :=
  do _ <- massert (0 <=? a); do _ <- massert (0 <=? b); do _ <- massert (0 <=? c);
  do _ <- massert (a <? nb_vertices m);
  do _ <- massert (b <? nb_vertices m);
  do _ <- massert (c <? nb_vertices m);
  kern_add_triangle m a b c.

(** Mesh.cpp:158-165 *)
Definition add_triangle_points m (p1 p2 p3 : Point3 T) : res (Mesh T * Z) :=
  let '(m, i1) := add_vertex m p1 in
  let '(m, i2) := add_vertex m p2 in
  let '(m, i3) := add_vertex m p3 in
  add_triangle m i1 i2 i3.

(** Mesh.cpp:167-181 *)
Definition add_quad m (a b c d : Z) : res (Mesh T) :=
  do _ <- massert (0 <=? a); do _ <- massert (0 <=? b);
  do _ <- massert (0 <=? c); do _ <- massert (0 <=? d);
  do _ <- massert (a <? nb_vertices m); do _ <- massert (b <? nb_vertices m);
  do _ <- massert (c <? nb_vertices m); do _ <- massert (d <? nb_vertices m);
  do r <- kern_add_triangle m a b c;
  do r <- kern_add_triangle (fst r) c d a;
  Ok (fst r).

(** Mesh.cpp:183-208 *)
Definition add_quad_points m (p1 p2 p3 p4 : Point3 T) (bOptim : bool) : res (Mesh T) :=
  let '(m, i1) := add_vertex m p1 in
  let '(m, i2) := add_vertex m p2 in
  let '(m, i3) := add_vertex m p3 in
  let '(m, i4) := add_vertex m p4 in
  if negb bOptim then add_quad m i1 i2 i3 i4
  else
    do a1 <- tri_surface (mkTri p1 p2 p3);
    do a2 <- tri_surface (mkTri p3 p4 p1);
    let surfaceQuad1 := nadd a1 a2 in
    do a3 <- tri_surface (mkTri p2 p3 p4);
    do a4 <- tri_surface (mkTri p4 p1 p2);
    let surfaceQuad2 := nadd a3 a4 in
    if nleb surfaceQuad1 surfaceQuad2 then add_quad m i1 i2 i3 i4
    else add_quad m i2 i3 i4 i1.

(** Mesh.cpp:210-227 *)
Definition add_pentagon m (a b c d e : Z) : res (Mesh T) :=
  do _ <- massert (0 <=? a); do _ <- massert (0 <=? b); do _ <- massert (0 <=? c);
  do _ <- massert (0 <=? d); do _ <- massert (0 <=? e);
  do _ <- massert (a <? nb_vertices m); do _ <- massert (b <? nb_vertices m);
  do _ <- massert (c <? nb_vertices m); do _ <- massert (d <? nb_vertices m);
  do _ <- massert (e <? nb_vertices m);
  do r <- kern_add_triangle m a b c;
  do r <- kern_add_triangle (fst r) c d e;
  do r <- kern_add_triangle (fst r) a c e;
  Ok (fst r).

(** Mesh.cpp:238-254 *)
Definition split_triangle_with_vertex m (i iv : Z) : res (Mesh T) :=
  do _ <- massert (in_range i (nb_triangles m));
  do _ <- massert (in_range iv (nb_vertices m));
  do v <- k_get_triangle_vertices (mkern m) i;
  let '(i1, i2, i3) := v in
  do k <- k_unlink (mkern m) i;
  let m := mkMesh k (mcolor m) in
  do r <- kern_add_triangle m i1 i2 iv;
  do r <- kern_add_triangle (fst r) i2 i3 iv;
  do r <- kern_add_triangle (fst r) i3 i1 iv;
  Ok (fst r).

(** Mesh.cpp:229-236 *)
Definition split_triangle_with_point m (i : Z) (p : Point3 T) : res (Mesh T) :=
  do _ <- massert (in_range i (nb_triangles m));
  let '(m, iv) := add_vertex m p in
  split_triangle_with_vertex m i iv.

(** Mesh.cpp:12, the macro [rotate(a,b,c)]: tmp=a; a=b; b=c; c=a (c receives the new a). *)
Definition rotate_macro (v : Z * Z * Z) : Z * Z * Z :=
  let '(a, b, c) := v in
  let a := b in let b := c in let c := a in (a, b, c).

(** Mesh.cpp:257-286 *)
Definition split_edge_with_vertex m (it1 it2 iv1 iv2 ivs : Z) : res (Mesh T) :=
  do _ <- massert (negb (it1 =? -1));
  do _ <- massert (negb (it2 =? -1));
  do v <- k_get_triangle_vertices (mkern m) it1;
  let fst3 := fun v : Z * Z * Z => let '(a, _, _) := v in a in
  let snd3 := fun v : Z * Z * Z => let '(_, b, _) := v in b in
  let v := if negb (fst3 v =? iv1) then rotate_macro v else v in
  let v := if negb (fst3 v =? iv1) then rotate_macro v else v in
  do _ <- massert (fst3 v =? iv1);
  let '(a1, a2, a3) := v in
  do r <- kern_add_triangle m a1 ivs a3;
  do r <- kern_add_triangle (fst r) ivs a2 a3;
  do k <- k_unlink (mkern (fst r)) it1;
  let m := mkMesh k (mcolor m) in
  do v <- k_get_triangle_vertices (mkern m) it2;
  let v := if negb (snd3 v =? iv2) then rotate_macro v else v in
  let v := if negb (snd3 v =? iv2) then rotate_macro v else v in
  do _ <- massert (snd3 v =? iv2);
  let '(a1, a2, a3) := v in
  do r <- kern_add_triangle m a2 ivs a3;
  do r <- kern_add_triangle (fst r) ivs a1 a3;
  do k <- k_unlink (mkern (fst r)) it2;
  Ok (mkMesh k (mcolor m)).

(** Mesh.cpp:288-297 *)
Definition flip_triangle m (i : Z) : res (Mesh T) :=
  do _ <- massert (in_range i (nb_triangles m));
  do v <- k_get_triangle_vertices (mkern m) i;
  let '(i1, i2, i3) := v in
  do k <- k_unlink (mkern m) i;
  do r <- kern_add_triangle (mkMesh k (mcolor m)) i1 i3 i2;
  Ok (fst r).

(** Mesh.cpp:299-302 *)
Definition clear m : Mesh T := mkMesh k_empty (mcolor m).

(** Mesh.cpp:340-350 *)
Definition apply_transform m (f : Point3 T -> Point3 T) : res (Mesh T) :=
  for_ 0 (nb_vertices m)
    (fun i m => do p <- get_vertex m i; set_vertex m i (f p)) m.

(** Mesh.cpp:127-132, first loop of add_mesh, [f] a different object *)
Definition add_mesh_vertices m (f : Mesh T) : res (Mesh T) :=
  for_ 0 (nb_vertices f)
    (fun i m => do v <- get_vertex f i; Ok (fst (add_vertex m v))) m.
(** Mesh.cpp:134-142, second loop of add_mesh *)
Definition add_mesh_triangles m (f : Mesh T) (off : Z) : res (Mesh T) :=
  for_ 0 (nb_triangles f)
    (fun i m =>
       do u <- is_triangle_unlinked f i;
       if u then Ok m else
       do v <- get_triangle_vertices f i;
       let '(a, b, c) := v in
       do r <- add_triangle m (a + off) (b + off) (c + off); Ok (fst r)) m.
(** Mesh.cpp:119-143 with [f] not aliased to [*this] *)
Definition add_mesh m (f : Mesh T) : res (Mesh T) :=
  let m := set_color m (get_color f) in
  let off := nb_vertices m in
  do m <- add_mesh_vertices m f;
  add_mesh_triangles m f off.

(** Mesh.cpp:119-143 with [f] being [*this]: every read of [f] sees the current state.
    Both loops re-evaluate their bound on the growing mesh. *)
Definition add_mesh_self (fuel : nat) m : res (Mesh T) :=
  let off := nb_vertices m in
  do r <- while_ fuel
            (fun s => Ok (fst s <? nb_vertices (snd s)))
            (fun s => do v <- get_vertex (snd s) (fst s);
                      Ok (fst s + 1, fst (add_vertex (snd s) v)))
            (0, m);
  do r <- while_ fuel
            (fun s => Ok (fst s <? nb_triangles (snd s)))
            (fun s =>
               do u <- is_triangle_unlinked (snd s) (fst s);
               if u then Ok (fst s + 1, snd s) else
               do v <- get_triangle_vertices (snd s) (fst s);
               let '(a, b, c) := v in
               do q <- add_triangle (snd s) (a + off) (b + off) (c + off);
               Ok (fst s + 1, fst q))
            (0, snd r);
  Ok (snd r).

(** Mesh.cpp:110-117 with a source different from the destination; the old kernel of the
    destination is dropped (it leaks, see MHeap.v) so the result does not depend on [dst]. *)
Definition assign_mesh (dst src : Mesh T) : res (Mesh T) :=
  do m <- add_mesh (clear (mkMesh k_empty (mcolor dst))) src;
  Ok (set_color m (get_color src)).
(** Mesh.cpp:110-117 with [m = m]: the kernel is replaced before the source is read. *)
Definition assign_self (fuel : nat) m : res (Mesh T) :=
  let m := clear (mkMesh k_empty (mcolor m)) in
  do m <- add_mesh_self fuel m;
  Ok (set_color m (get_color m)).
(** Mesh.cpp:23-26; _iColor is uninitialised until add_mesh sets it, and is not read before. *)
Definition copy_mesh (src : Mesh T) : res (Mesh T) := assign_mesh mesh_new src.

(** Mesh.cpp:366-380: [if (planeA.intersect_with(seg,p)) v.push_back(p)] *)
Definition push_inter (pl : Plane3 T) (a b : Point3 T) (v : list (Point3 T)) : res (list (Point3 T)) :=
  do o <- plane_intersect_seg pl (mkSeg a b);
  match o with Some p => Ok (v ++ [p]) | None => Ok v end.

(** Mesh.cpp:352-449 *)
Definition split_triangle m (i : Z) (ts : Triangle3 T) : res (Mesh T) :=
  do tA <- get_triangle m i;
  do planeS <- plane_of_triangle ts;
  if negb (cutted_by tA planeS) then Ok m else
  do planeA <- plane_of_triangle tA;
  if negb (cutted_by ts planeA) then Ok m else
  do v <- push_inter planeA (t1 ts) (t2 ts) [];
  do v <- push_inter planeA (t1 ts) (t3 ts) v;
  do v <- (if vsize v <? 2 then push_inter planeA (t2 ts) (t3 ts) v else Ok v);
  do _ <- massert (vsize v <=? 2);
  match v with
  | [] => Ok m
  | [P1] => if tri_contains tA P1 then split_triangle_with_point m i P1 else Ok m
  | P1 :: P2 :: _ =>
      if negb (tri_contains tA P1) && negb (tri_contains tA P2) then
        let seg := mkSeg P1 P2 in
        do b12 <- seg_intersect (mkSeg (t1 tA) (t2 tA)) seg;
        do b13 <- seg_intersect (mkSeg (t1 tA) (t3 tA)) seg;
        do b23 <- seg_intersect (mkSeg (t2 tA) (t3 tA)) seg;
        let some := fun o : option (Point3 T) => match o with Some _ => true | None => false end in
        if negb (some b12 || some b13 || some b23) then Ok m else
        do _ <- massert (negb (some b12 && some b13 && some b23));
        Ok m
      else Ok m
  end.

End Mesh.
