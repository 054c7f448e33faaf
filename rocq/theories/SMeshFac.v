(** Specification words for the mesh factories. *)
From Coq Require Import ZArith List Bool Reals.
From Verif Require Import Base Num MGeometry MKernel MMesh MMeshRun SMesh SReach SGeom SMeasure.
Import ListNotations.
Open Scope Z_scope.

(** Arithmetic in which dividing by a positive integer never faults (true of the reals and of binary64), *)
Definition divides (T : Type) {N : Num T} : Prop := forall (x : T) (k : Z), 0 < k -> exists q, ndiv x (nofZ k) = Ok q.
(** and in which the golden ratio and its inverse can be computed. *)
Definition golden_ok (T : Type) {N : Num T} : Prop :=
  exists s t u, nsqrt (nofZ 5) = Ok s /\ ndiv (s + n1)%num n2 = Ok t /\ ndiv n1 t = Ok u.

(** A triangle that uses a vertex twice. *)
Definition repeats (t : triple) : bool := let '(x, y, z) := t in (x =? y) || (y =? z) || (z =? x).

(** The call succeeds and leaves a closed surface with these numbers of vertices and (linked) triangles. *)
Definition built {T : Type} {N : Num T} (r : res (Mesh T)) (nv nt : Z) : Prop :=
  exists m' a, r = Ok m' /\ reach m' /\ shows m' a /\ nb_vertices m' = nv /\ nb_triangles m' = nt /\ len (live a) = nt /\ index_closed (live a).

(** Implicit equations, for surfaces centred at the origin. *)
Open Scope R_scope.
Definition on_sphere (r : R) (p : pt3) : Prop := px p * px p + py p * py p + pz p * pz p = r * r.
(** Torus around the z axis: the distance to the circle of radius [rM] is [rm]. *)
Definition on_torus (rM rm : R) (p : pt3) : Prop :=
  let q := px p * px p + py p * py p + pz p * pz p + rM * rM - rm * rm in q * q = 4 * (rM * rM) * (px p * px p + py p * py p).
(** The rims of a cylinder of radius [r] and height [h] around the z axis. *)
Definition on_rim (r h : R) (p : pt3) : Prop := px p * px p + py p * py p = r * r /\ (pz p = h / 2 \/ pz p = - (h / 2)).

(** The golden ratio minus one, 0.618... *)
Definition tau : R := (sqrt 5 - 1) / 2.
(** A regular pentagon: equal sides, equal diagonals (1 / tau times longer), five points in one plane. *)
Definition regular_pentagon (s : R) (p : list pt3) : Prop :=
  match p with
  | [a; b; c; d; e] =>
      (dist3 a b = s /\ dist3 b c = s /\ dist3 c d = s /\ dist3 d e = s /\ dist3 e a = s) /\
      (dist3 a c = s / tau /\ dist3 b d = s / tau /\ dist3 c e = s / tau /\ dist3 d a = s / tau /\ dist3 e b = s / tau) /\
      det3 (sub3 b a) (sub3 c a) (sub3 d a) = 0 /\ det3 (sub3 b a) (sub3 c a) (sub3 e a) = 0
  | _ => False
  end.
(** The three triangles that cover the pentagon v w x y z. *)
Definition fan5 (f : list Z) : list triple :=
  match f with [v; w; x; y; z] => [(v, w, x); (x, y, z); (v, x, z)]%Z | _ => [] end.

(** The smallest box around the vertices goes from -(x,y,z) to (x,y,z). *)
Definition boxed (a : AMesh R) (x y z : R) : Prop :=
  (forall p, In p (averts a) -> in_box (mkP (- x) (- y) (- z)) (mkP x y z) p) /\
  forall lo hi, (forall p, In p (averts a) -> in_box lo hi p) -> in_box lo hi (mkP (- x) (- y) (- z)) /\ in_box lo hi (mkP x y z).
