(** When remove_empty_triangles takes a triangle for empty. *)
From Coq Require Import ZArith Reals List Bool.
From Verif Require Import Base Num MGeometry SMesh SGeom SMerge.

(** One of the sides, as computed, is below the tolerance. *)
Definition found_thin {T} {N : Num T} (tol : T) (p q r : Point3 T) : bool := found_near tol p q || found_near tol q r || found_near tol r p.
Definition at_corners {T} {A} (f : Point3 T -> Point3 T -> Point3 T -> A) (a : AMesh T) (d : Point3 T) (t : triple) : A := let '(x, y, z) := t in f (pt a x d) (pt a y d) (pt a z d).
(** No side shorter than [e]. *)
Definition sides_from (e : R) (f : pt3 * pt3 * pt3) : Prop := let '(p, q, r) := f in (e <= dist3 p q /\ e <= dist3 q r /\ e <= dist3 r p)%R.
(** The corners of a list of triangles, three for each. *)
Definition corners_of {A} (fs : list (A * A * A)) : list A := flat_map (fun f => let '(p, q, r) := f in p :: q :: r :: nil) fs.
(** The point [u] steps towards the second corner and [v] towards the third, of [n] steps each. *)
Definition grid_point (n : Z) (f : pt3 * pt3 * pt3) (u v : Z) : pt3 :=
  let '(a, b, c) := f in add3 (add3 a (scal3 (IZR u / IZR n) (sub3 b a))) (scal3 (IZR v / IZR n) (sub3 c a)).
Definition on_grid (n u v : Z) : Prop := (0 <= u /\ 0 <= v /\ u + v <= n)%Z.
(** Grid points of the faces coincide or are at least [e] apart. *)
Definition grid_apart (e : R) (n : Z) (fs : list (pt3 * pt3 * pt3)) : Prop :=
  forall f g u v u' v', In f fs -> In g fs -> on_grid n u v -> on_grid n u' v' ->
    grid_point n f u v = grid_point n g u' v' \/ (e <= dist3 (grid_point n f u v) (grid_point n g u' v'))%R.
