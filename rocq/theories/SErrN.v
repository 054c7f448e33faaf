(** NURBS curves and surfaces stored in doubles: what they stand for, and the error allowed for a point of them. *)
From Coq Require Import ZArith List Bool Reals.
From Flocq Require Import Core IEEE754.Binary.
From Verif Require Import Base Num MGeometry MNurbs MNurbsSurface MStl MF64 SGeom SErr.
Import ListNotations.
Open Scope R_scope.

(** The curve and the surface over the reals that the stored doubles stand for. *)
Definition val_curve (c : NurbsCurve f64) : NurbsCurve R :=
  mkNC (nc_degree c) (map val (nc_knots c)) (map val (nc_weights c)) (map val_pt (nc_points c)) (nc_nb c) (map val_pt (nc_tp c)) (map val (nc_tw c)).
Definition val_surface (s : NurbsSurface f64) : NurbsSurface R :=
  mkNS (ns_degU s) (ns_degV s) (ns_nbU s) (ns_nbV s) (ns_closedU s) (ns_closedV s) (map val (ns_knotsU s)) (map val (ns_knotsV s))
    (map val (ns_weights s)) (map val_pt (ns_points s)) (map val_pt (ns_tpU s)) (map val_pt (ns_tpV s)) (map val (ns_twU s)) (map val (ns_twV s)).

(** Finite coordinates of magnitude at most [K], finite weights between [w0] and [W]. *)
Definition coords_within (K : R) (l : list (Point3 f64)) : Prop :=
  Forall (fun p => (fin (px p) /\ Rabs (val (px p)) <= K) /\ (fin (py p) /\ Rabs (val (py p)) <= K) /\ (fin (pz p) /\ Rabs (val (pz p)) <= K)) l.
Definition weights_within (w0 W : R) (l : list f64) : Prop := Forall (fun w => fin w /\ w0 <= val w <= W) l.
(** Magnitudes far from overflow and underflow. *)
Definition moderate (x : R) : Prop := bpow radix2 (-400) <= x <= bpow radix2 400.

(** The error of a point computed by [d] rounds of interpolation (the degree; for a surface the sum of the degrees):
    2^-53 times 4 K (1 + (13 d + 2) W / w0). *)
Definition nurbs_error (d : Z) (K W w0 : R) : R := bpow radix2 (-53) * (4 * K * (1 + (13 * IZR d + 2) * (W / w0))).
(** The weights do not differ so much that the denominator could vanish in the rounding. *)
Definition balanced (d : Z) (W w0 : R) : Prop := bpow radix2 (-53) * (13 * IZR d + 2) * W <= w0 / 2.
(** All three coordinates are within [e]. *)
Definition close_pt (p : Point3 f64) (q : pt3) (e : R) : Prop := close_to (px p) (px q) e /\ close_to (py p) (py q) e /\ close_to (pz p) (pz q) e.

(** Unit weights and finite points. *)
Definition unit_weights (l : list f64) : Prop := Forall (fun w => fin w /\ val w = 1) l.
Definition finite_points (l : list (Point3 f64)) : Prop := Forall (fun p => fin (px p) /\ fin (py p) /\ fin (pz p)) l.
(** The two points have the same finite coordinates (0 and -0 count as the same). *)
Definition same_place (p q : Point3 f64) : Prop := (fin (px p) /\ fin (py p) /\ fin (pz p)) /\ val_pt p = val_pt q.
(** The index of the control point at an end of a direction with [n] control points. *)
Definition end_index (t : f64) (n : Z) : Z := if Req_EM_T (val t) 0 then 0%Z else (n - 1)%Z.
