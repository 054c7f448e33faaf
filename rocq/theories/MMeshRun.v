(** A client program calling the public interface of one Mesh object (src/Mesh.h:19-53). *)
From Coq Require Import ZArith List Bool.
From Verif Require Import Base Num MGeometry MKernel MMesh SMesh.
Import ListNotations.
Open Scope Z_scope.

Section Run.
Context {T : Type} {N : Num T}.
Implicit Types m : Mesh T.

Definition unit_out (r : res (Mesh T)) : res (Mesh T * out) := do m <- r; Ok (m, OutUnit).
Definition id_out (r : res (Mesh T * Z)) : res (Mesh T * out) := do x <- r; Ok (fst x, OutId (snd x)).

(** One call; mesh arguments are other objects than [m] (see MHeap.v for aliasing). *)
Definition mstep m (o : op T (Mesh T)) : res (Mesh T * out) :=
  match o with
  | OpAddVertex p => let '(m, i) := add_vertex m p in Ok (m, OutId i)
  | OpSetVertex i p => unit_out (set_vertex m i p)
  | OpAddTriangle a b c => id_out (add_triangle m a b c)
  | OpAddTrianglePts p q r => id_out (add_triangle_points m p q r)
  | OpAddQuad a b c d => unit_out (add_quad m a b c d)
  | OpAddQuadPts p q r s => unit_out (add_quad_points m p q r s false)
  | OpAddPentagon a b c d e => unit_out (add_pentagon m a b c d e)
  | OpUnlink i => unit_out (unlink_triangle m i)
  | OpSplit i iv => unit_out (split_triangle_with_vertex m i iv)
  | OpSplitPt i p => unit_out (split_triangle_with_point m i p)
  | OpFlip i => unit_out (flip_triangle m i)
  | OpTransform f => unit_out (apply_transform m f)
  | OpSetColor c => Ok (set_color m c, OutUnit)
  | OpClear => Ok (clear m, OutUnit)
  | OpAddMesh f => unit_out (add_mesh m f)
  | OpAssign f => unit_out (assign_mesh m f)
  end.

Fixpoint mrun m (os : list (op T (Mesh T))) : res (Mesh T * list out) :=
  match os with
  | [] => Ok (m, [])
  | o :: os =>
      do r <- mstep m o;
      do q <- mrun (fst r) os;
      Ok (fst q, snd r :: snd q)
  end.

End Run.
