(** Specification words for the mesh utilities (merge, clean-up, tessellation). *)
From Coq Require Import ZArith List Bool Reals.
From Verif Require Import MGeometry SMesh SGeom SMeasure.
Import ListNotations.
Open Scope Z_scope.

(** Two points nearer than the tolerance. *)
Definition short (tol : R) (p q : pt3) : Prop := (dist3 p q < Rabs tol)%R.
(** A triangle with at least one edge shorter than the tolerance. *)
Definition thin (tol : R) (f : pt3 * pt3 * pt3) : Prop :=
  let '(p, q, r) := f in short tol p q \/ short tol q r \/ short tol r p.
(** The same triple with its ids renamed. *)
Definition map_triple (f : Z -> Z) (t : triple) : triple := let '(x, y, z) := t in (f x, f y, f z).

(** [fs] cuts the triangle [f] into [n * n] triangles similar to it: the same plane and orientation,
    every corner inside [f], every area vector the [n * n]-th part of that of [f]. *)
Definition cuts (n : Z) (f : pt3 * pt3 * pt3) (fs : list (pt3 * pt3 * pt3)) : Prop :=
  let '(a, b, c) := f in
  len fs = n * n /\
  forall p q r, In (p, q, r) fs ->
    in_triangle a b c p /\ in_triangle a b c q /\ in_triangle a b c r /\
    scal3 (IZR (n * n)) (cross3 (sub3 q p) (sub3 r p)) = cross3 (sub3 b a) (sub3 c a).

(** [t] is the oriented triangle x y z, written from any of its corners. *)
Definition is_rot (t : triple) (x y z : Z) : Prop := t = (x, y, z) \/ t = (y, z, x) \/ t = (z, x, y).

(** No vertex of a face of one mesh lies in the plane of a face of the other. *)
Definition off_each_other (a b : AMesh R) : Prop :=
  forall p q r p' q' r', In (p, q, r) (faces a) -> In (p', q', r') (faces b) ->
    vertices_off (mkTri p q r) (mkTri p' q' r') /\ vertices_off (mkTri p' q' r') (mkTri p q r).
