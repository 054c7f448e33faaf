(** All meshes a client can obtain through the interface of Mesh, MeshUtil and MeshTessellate. *)
From Coq Require Import ZArith List Bool.
From Verif Require Import Base Num MGeometry MKernel MMesh MMeshRun MUtil SMesh.
Import ListNotations.
Open Scope Z_scope.

Section Reach.
Context {T : Type} {N : Num T}.

Inductive reach : Mesh T -> Prop :=
| R_new : reach mesh_new
| R_copy m m' : reach m -> copy_mesh m = Ok m' -> reach m'
| R_step m o m' x : reach m ->
    (forall f, o = OpAddMesh f \/ o = OpAssign f -> reach f) ->
    mstep m o = Ok (m', x) -> reach m'
| R_self_assign m m' fuel : reach m -> assign_self fuel m = Ok m' -> reach m'
| R_self_add m m' fuel : reach m -> add_mesh_self fuel m = Ok m' -> reach m'
| R_quad_optim m p q r s m' : reach m -> add_quad_points m p q r s true = Ok m' -> reach m'
| R_split_edge m a b c d e m' : reach m -> split_edge_with_vertex m a b c d e = Ok m' -> reach m'
| R_split_triangle m i t m' : reach m -> split_triangle m i t = Ok m' -> reach m'
| R_from_z m vz sx sy m' : reach m -> create_from_z vz sx sy m = Ok m' -> reach m'
| R_from_grid m vp sx sy m' : reach m -> create_from_grid vp sx sy m = Ok m' -> reach m'
| R_merge m tol m' : reach m -> merge_vertices m tol = Ok m' -> reach m'
| R_remove_empty m tol m' : reach m -> remove_empty_triangles m tol = Ok m' -> reach m'
| R_tessellate m n mo m' : reach m -> reach mo -> tessellate m n mo = Ok m' -> reach m'
| R_split_meshes_A A B Ao Bo : reach A -> reach B -> split_meshes A B = Ok (Ao, Bo) -> reach Ao
| R_split_meshes_B A B Ao Bo : reach A -> reach B -> split_meshes A B = Ok (Ao, Bo) -> reach Bo.

End Reach.

(** ** What a client sees of a mesh *)
Section Shows.
Context {T : Type} {N : Num T}.

(** [m] looks, through its public const methods, like the list of points and triples [a]. *)
Definition shows (m : Mesh T) (a : AMesh T) : Prop :=
  nb_vertices m = len (averts a) /\
  nb_triangles m = len (atris a) /\
  get_color m = acolor a /\
  (forall i, match nth_error (averts a) (Z.to_nat i) with
             | Some p => 0 <= i -> get_vertex m i = Ok p
             | None => get_vertex m i = Err FAssert
             end) /\
  (forall i, match nth_error (atris a) (Z.to_nat i) with
             | Some (t, b) => 0 <= i -> get_triangle_vertices m i = Ok t /\ is_triangle_unlinked m i = Ok (negb b)
             | None => get_triangle_vertices m i = Err FAssert /\ is_triangle_unlinked m i = Err FAssert
             end).

(** Mesh arguments of a call are reachable meshes that look like the abstract ones. *)
Definition op_shows (o : op T (Mesh T)) (o' : op T (AMesh T)) : Prop :=
  match o, o' with
  | OpAddVertex p, OpAddVertex p' => p = p'
  | OpSetVertex i p, OpSetVertex i' p' => i = i' /\ p = p'
  | OpAddTriangle a b c, OpAddTriangle a' b' c' => (a, b, c) = (a', b', c')
  | OpAddTrianglePts a b c, OpAddTrianglePts a' b' c' => (a, b, c) = (a', b', c')
  | OpAddQuad a b c d, OpAddQuad a' b' c' d' => (a, b, c, d) = (a', b', c', d')
  | OpAddQuadPts a b c d, OpAddQuadPts a' b' c' d' => (a, b, c, d) = (a', b', c', d')
  | OpAddPentagon a b c d e, OpAddPentagon a' b' c' d' e' => (a, b, c, d, e) = (a', b', c', d', e')
  | OpUnlink i, OpUnlink i' => i = i'
  | OpSplit i v, OpSplit i' v' => (i, v) = (i', v')
  | OpSplitPt i p, OpSplitPt i' p' => (i, p) = (i', p')
  | OpFlip i, OpFlip i' => i = i'
  | OpTransform f, OpTransform f' => f = f'
  | OpSetColor c, OpSetColor c' => c = c'
  | OpClear, OpClear => True
  | OpAddMesh f, OpAddMesh f' => reach f /\ shows f f'
  | OpAssign f, OpAssign f' => reach f /\ shows f f'
  | _, _ => False
  end.

(** ** In-place evolution of one mesh object: every mutating call except clear, assignment
    and the functions that rebuild the whole mesh after a clear. *)
Inductive evolves : Mesh T -> Mesh T -> Prop :=
| E_refl m : evolves m m
| E_step m m1 o m' x : evolves m m1 -> o <> OpClear -> (forall f, o <> OpAssign f) ->
    (forall f, o = OpAddMesh f -> reach f) -> mstep m1 o = Ok (m', x) -> evolves m m'
| E_self_add m m1 fuel m' : evolves m m1 -> add_mesh_self fuel m1 = Ok m' -> evolves m m'
| E_quad_optim m m1 p q r s m' : evolves m m1 -> add_quad_points m1 p q r s true = Ok m' -> evolves m m'
| E_split_edge m m1 a b c d e m' : evolves m m1 -> split_edge_with_vertex m1 a b c d e = Ok m' -> evolves m m'
| E_split_triangle m m1 i t m' : evolves m m1 -> split_triangle m1 i t = Ok m' -> evolves m m'
| E_remove_empty m m1 tol m' : evolves m m1 -> remove_empty_triangles m1 tol = Ok m' -> evolves m m'.

End Shows.
