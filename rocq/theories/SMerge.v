(** When merge_vertices takes two points for one. *)
From Coq Require Import ZArith Reals.
From Verif Require Import Base Num MGeometry SGeom.

(** The squared distance, as computed, is below the squared tolerance, as computed. *)
Definition found_near {T} {N : Num T} (tol : T) (p q : Point3 T) : bool := nltb (distance_square p q) (nmul tol tol).

(** Corner by corner, no farther apart than [e]. *)
Definition faces_within (e : R) (f g : pt3 * pt3 * pt3) : Prop :=
  let '(p, q, r) := f in let '(x, y, z) := g in (dist3 p x <= e /\ dist3 q y <= e /\ dist3 r z <= e)%R.
