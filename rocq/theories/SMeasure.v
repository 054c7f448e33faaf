(** Area, signed volume and closedness of an abstract mesh (list of points + list of triples). *)
From Coq Require Import ZArith List Bool Reals Permutation.
From Verif Require Import MGeometry SMesh SGeom.
Import ListNotations.
Open Scope R_scope.

Definition sumR (l : list R) : R := fold_right Rplus 0 l.

(** The corners of the triangles that belong to the surface. *)
Definition corners (a : AMesh R) (t : triple) : pt3 * pt3 * pt3 :=
  let '(x, y, z) := t in (pt a x O3, pt a y O3, pt a z O3).
Definition faces (a : AMesh R) : list (pt3 * pt3 * pt3) := map (corners a) (live a).

Definition area_tri (f : pt3 * pt3 * pt3) : R := let '(p, q, r) := f in area3 p q r.
Definition vol_tri (f : pt3 * pt3 * pt3) : R := let '(p, q, r) := f in tetra_vol p q r.
Definition total_area (a : AMesh R) : R := sumR (map area_tri (faces a)).
Definition total_vol (a : AMesh R) : R := sumR (map vol_tri (faces a)).

(** Directed edges. *)
Definition edges3 {A} (t : A * A * A) : list (A * A) := let '(x, y, z) := t in [(x, y); (y, z); (z, x)].
Definition swap {A} (e : A * A) : A * A := (snd e, fst e).
Definition zz_dec (a b : Z * Z) : {a = b} + {a <> b}.
Proof. decide equality; apply Z.eq_dec. Defined.
(** Every directed edge is used as often as its reverse (vertices compared by id). *)
Definition index_closed (ts : list triple) : Prop :=
  forall i j, count_occ zz_dec (flat_map edges3 ts) (i, j) = count_occ zz_dec (flat_map edges3 ts) (j, i).
(** The same with vertices compared by position: the list of directed edges is a rearrangement of
    the list of reversed edges. *)
Definition closed_surface (fs : list (pt3 * pt3 * pt3)) : Prop :=
  Permutation (flat_map edges3 fs) (map swap (flat_map edges3 fs)).
