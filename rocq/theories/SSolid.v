(** Specification of the mesh of a solid: the grids of its surfaces, one after the other. *)
From Coq Require Import ZArith List Bool Reals.
From Verif Require Import Base Num MGeometry MMesh MNurbs MNurbsSurface SGeom SNurbs SSurface.
Import ListNotations.
Open Scope Z_scope.

(** The grid of surface [s] with [seg] segments per control point is in mesh [m], vertices from [st] and triangles from [t0] on. *)
Definition grid_nv (seg : Z) (s : NurbsSurface R) : Z := (seg * ns_nbU s + 1) * (seg * ns_nbV s + 1).
Definition grid_nt (seg : Z) (s : NurbsSurface R) : Z := 2 * (seg * ns_nbU s) * (seg * ns_nbV s).
Definition grid_in (m : Mesh R) (st t0 seg : Z) (s : NurbsSurface R) : Prop :=
  let nU := (seg * ns_nbU s) in let nV := (seg * ns_nbV s) in let id u v := (st + u + (nU + 1) * v) in
  (forall u v, (0 <= u <= nU) -> (0 <= v <= nV) -> get_vertex m (id u v) = Ok (surf_at s (IZR u / IZR nU) (IZR v / IZR nV))) /\
  (forall u v, (0 <= u < nU) -> (0 <= v < nV) -> let u' := next (ns_closedU s) nU u in let v' := next (ns_closedV s) nV v in let t := (t0 + 2 * (u + nU * v)) in
     get_triangle_vertices m t = Ok (id u v, id u' v, id u' v') /\ get_triangle_vertices m (t + 1) = Ok (id u' v', id u v', id u v) /\
     is_triangle_unlinked m t = Ok false /\ is_triangle_unlinked m (t + 1) = Ok false).
(** Sum over the surfaces. *)
Definition total (f : NurbsSurface R -> Z) (ss : list (NurbsSurface R)) : Z := fold_right (fun s a => f s + a) 0 ss.
