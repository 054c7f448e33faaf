(** Points of doubles compared as the machine compares them. *)
From Coq Require Import ZArith List Bool Reals.
From Flocq Require Import IEEE754.Binary.
From Verif Require Import Base Num MGeometry MNurbs MNurbsSurface MStl MF64 SGeom SNurbs.
Import ListNotations.

Definition dpt : Type := Point3 f64.
Definition no_nan (x : f64) : Prop := Binary.is_nan 53 1024 x = false.
Definition no_nan_pt (p : dpt) : Prop := no_nan (px p) /\ no_nan (py p) /\ no_nan (pz p).
(** x <= y and x == y of C++ *)
Definition dle (x y : f64) : Prop := f64_leb x y = true.
Definition deq (x y : f64) : Prop := f64_eqb x y = true.
Definition deq_pt (p q : dpt) : Prop := deq (px p) (px q) /\ deq (py p) (py q) /\ deq (pz p) (pz q).
(** The point [x] is between the corners [lo] and [hi]. *)
Definition in_dbox (lo hi x : dpt) : Prop :=
  dle (px lo) (px x) /\ dle (px x) (px hi) /\ dle (py lo) (py x) /\ dle (py x) (py hi) /\ dle (pz lo) (pz x) /\ dle (pz x) (pz hi).
Definition dbox_lo (b : BBox3 f64) : dpt := mkP (bx1 b) (by1 b) (bz1 b).
Definition dbox_hi (b : BBox3 f64) : dpt := mkP (bx2 b) (by2 b) (bz2 b).

(** The real values of a list of doubles. *)
Definition dvals (ks : list f64) : list R := map (fun k : f64 => Binary.B2R 53 1024 k) ks.
(** A curve of doubles that is ready to be evaluated: consistent sizes, set_degree called, finite clamped knots.
    Points and weights are any doubles. *)
Definition dvalid (c : NurbsCurve f64) : Prop :=
  let n := vsize (nc_points c) in
  nc_nb c = n /\ vsize (nc_weights c) = n /\
  Forall (fun k : f64 => Binary.is_finite 53 1024 k = true) (nc_knots c) /\ clamped (dvals (nc_knots c)) (nc_degree c) n /\
  (nc_degree c + 1 <= vsize (nc_tp c))%Z /\ (nc_degree c + 1 <= vsize (nc_tw c))%Z.
(** The data of the curve are the same. *)
Definition dsame (c c' : NurbsCurve f64) : Prop :=
  nc_degree c' = nc_degree c /\ nc_knots c' = nc_knots c /\ nc_weights c' = nc_weights c /\
  nc_points c' = nc_points c /\ nc_nb c' = nc_nb c.
(** The same for surfaces. *)
Definition dsvalid (s : NurbsSurface f64) : Prop :=
  vsize (ns_points s) = (ns_nbU s * ns_nbV s)%Z /\ vsize (ns_weights s) = (ns_nbU s * ns_nbV s)%Z /\
  Forall (fun k : f64 => Binary.is_finite 53 1024 k = true) (ns_knotsU s) /\ Forall (fun k : f64 => Binary.is_finite 53 1024 k = true) (ns_knotsV s) /\
  clamped (dvals (ns_knotsU s)) (ns_degU s) (ns_nbU s) /\ clamped (dvals (ns_knotsV s)) (ns_degV s) (ns_nbV s) /\
  (ns_degU s + 1 <= vsize (ns_tpU s))%Z /\ (ns_degU s + 1 <= vsize (ns_twU s))%Z /\
  (ns_degV s + 1 <= vsize (ns_tpV s))%Z /\ (ns_degV s + 1 <= vsize (ns_twV s))%Z.
Definition dssame (s s' : NurbsSurface f64) : Prop :=
  ns_degU s' = ns_degU s /\ ns_degV s' = ns_degV s /\ ns_nbU s' = ns_nbU s /\ ns_nbV s' = ns_nbV s /\
  ns_closedU s' = ns_closedU s /\ ns_closedV s' = ns_closedV s /\ ns_knotsU s' = ns_knotsU s /\ ns_knotsV s' = ns_knotsV s /\
  ns_weights s' = ns_weights s /\ ns_points s' = ns_points s.
