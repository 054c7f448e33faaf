(** More geometry for the specifications: which side of a triangle's plane a point is on. *)
From Coq Require Import Reals.
From Verif Require Import MGeometry SGeom.
Open Scope R_scope.

(** Positive on the side the triangle's normal points to, zero on its plane. *)
Definition tside (t : Triangle3 R) (x : pt3) : R := det3 (sub3 x (t1 t)) (sub3 (t2 t) (t1 t)) (sub3 (t3 t) (t1 t)).
(** The point [x] strictly between [p] and [q]. *)
Definition between (x p q : pt3) : Prop := exists k, 0 < k < 1 /\ x = lerp3 p q k.
(** A corner of [s] is in the plane of [t] and the opposite edge of [s] crosses this plane at [x]. *)
Definition corner_and_edge (t s : Triangle3 R) (x : pt3) : Prop :=
  exists c p q, ((c, p, q) = (t1 s, t2 s, t3 s) \/ (c, p, q) = (t2 s, t1 s, t3 s) \/ (c, p, q) = (t3 s, t1 s, t2 s)) /\
    tside t c = 0 /\ tside t p * tside t q < 0 /\ between x p q /\ tside t x = 0.
(** An edge of [s] crosses the plane of [t] at [x]. *)
Definition edge_crossing (t s : Triangle3 R) (x : pt3) : Prop :=
  exists p q, tri_edge s p q /\ tside t p * tside t q < 0 /\ between x p q /\ tside t x = 0.
