(** C96: when a curve says that it is closed, and the closed flags of surfaces made from curves. *)
From Coq Require Import ZArith List Bool Reals.
From Flocq Require Import IEEE754.Binary.
From Verif Require Import Base Num MF64 MGeometry MMesh MNurbs MNurbsSurface MNurbsFactory SGeom SNurbs SSurface SMesh SUtil LNurbs LClosed LClosedF.
Import ListNotations.
Open Scope Z_scope.

(** At least two control points, the first and the last less than the tolerance apart. *)
Theorem C96_is_closed : forall (c : NurbsCurve R) (tol : R), exists b, nc_is_closed c tol = Ok b /\
  (b = true <-> 2 <= vsize (nc_points c) /\ short tol (cp c 0) (cp c (vsize (nc_points c) - 1))).
Proof. exact is_closed_iff. Qed.
Print Assumptions C96_is_closed.
(** For a clamped curve these are the ends of the curve. *)
Theorem C96_ends_meet : forall (c : NurbsCurve R) (tol : R), valid c -> 1 <= nc_degree c -> tight (nc_knots c) (nc_degree c) (vsize (nc_points c)) ->
  exists b p q, nc_is_closed c tol = Ok b /\ point_of (nc_evaluate c 0%R) = Ok p /\ point_of (nc_evaluate c 1%R) = Ok q /\ (b = true <-> short tol p q).
Proof. exact closed_ends. Qed.
Print Assumptions C96_ends_meet.
Example C96_case_line : nc_is_closed line2 default_tol = Ok false /\ nc_is_closed line2 2%R = Ok true.
Proof. exact line2_open. Qed.
Example C96_case_tight : forall (r : R) (c0 : NurbsCurve R), exists c, nf_create_circle r c0 = Ok c /\ valid c /\ 1 <= nc_degree c /\ tight (nc_knots c) (nc_degree c) (vsize (nc_points c)).
Proof. exact circle_tight. Qed.
Theorem C96_circle : forall (r : R) (c0 : NurbsCurve R), exists c, nf_create_circle r c0 = Ok c /\ nc_is_closed c default_tol = Ok true.
Proof. exact circle_closed. Qed.
Print Assumptions C96_circle.
(** The comparison is strict: with tolerance 0 nothing is closed. *)
Theorem C96_zero_tolerance_refuted : forall c : NurbsCurve R, nc_is_closed c 0%R = Ok false.
Proof. exact zero_tolerance. Qed.
Print Assumptions C96_zero_tolerance_refuted.

(** In doubles. *)
Theorem C96_same_point_double : forall (c : NurbsCurve f64) (p : Point3 f64), 2 <= vsize (nc_points c) -> vget (nc_points c) 0 = Ok p -> vget (nc_points c) (vsize (nc_points c) - 1) = Ok p ->
  is_finite 53 1024 (px p) = true -> is_finite 53 1024 (py p) = true -> is_finite 53 1024 (pz p) = true -> nc_is_closed c default_tol = Ok true.
Proof. exact closed_default. Qed.
Print Assumptions C96_same_point_double.
(** The tolerance 2^-600 is positive, but its square is 0. *)
Theorem C96_tiny_tolerance_refuted : f64_ltb (f64_ofZ 0) tiny = true /\
  forall (c : NurbsCurve f64) (p : Point3 f64), 2 <= vsize (nc_points c) -> vget (nc_points c) 0 = Ok p -> vget (nc_points c) (vsize (nc_points c) - 1) = Ok p ->
  is_finite 53 1024 (px p) = true -> is_finite 53 1024 (py p) = true -> is_finite 53 1024 (pz p) = true -> nc_is_closed c tiny = Ok false.
Proof. exact (conj tiny_pos tiny_open). Qed.
Print Assumptions C96_tiny_tolerance_refuted.

(** The flags of the surfaces made from curves. *)
Theorem C96_extrude_flags : forall (T : Type) (N : Num T) (c : NurbsCurve T) (dir : Point3 T) (s0 s : NurbsSurface T), ne_extrude c dir s0 = Ok s ->
  nc_is_closed c default_tol = Ok (ns_closedU s) /\ ns_closedV s = ns_closedV s0.
Proof. exact (@extrude_flags). Qed.
Print Assumptions C96_extrude_flags.
Theorem C96_revolve_flags : forall (T : Type) (N : Num T) (c : NurbsCurve T) (s0 s : NurbsSurface T), nr_revolve c s0 = Ok s ->
  nc_is_closed c default_tol = Ok (ns_closedV s) /\ ns_closedU s = true.
Proof. exact (@revolve_flags). Qed.
Print Assumptions C96_revolve_flags.
Theorem C96_ruled_flags : forall (T : Type) (N : Num T) (c1 c2 : NurbsCurve T) (s0 s : NurbsSurface T), nr_create_ruled c1 c2 s0 = Ok s ->
  (ns_closedU s = true <-> nc_is_closed c1 default_tol = Ok true /\ nc_is_closed c2 default_tol = Ok true) /\ ns_closedV s = ns_closedV s0.
Proof. exact (@ruled_flags). Qed.
Print Assumptions C96_ruled_flags.
(** A torus is closed both ways, so that every edge of its mesh is also the edge, the other way round, of a
    triangle (5148 segments per control point are the most that to_mesh can count, C63_fine_grid_refuted). *)
Theorem C96_torus : forall (rM rm : R) (s0 : NurbsSurface R) (m : Mesh R) seg, 0 < seg <= 5148 -> exists s m', nf_create_torus rM rm s0 = Ok s /\ nu_to_mesh s m seg true = Ok m' /\ 0 < nb_triangles m' /\
  forall t p q, 0 <= t < nb_triangles m' -> has_edge m' t p q -> exists t', 0 <= t' < nb_triangles m' /\ has_edge m' t' q p.
Proof. exact torus_mesh. Qed.
Print Assumptions C96_torus.
(** A surface object that was a torus and is used again for a tube is still flagged as closed in v, though its two
    rims are 1 apart. *)
Theorem C96_stale_flag_refuted : exists (c : NurbsCurve R) (s0 s : NurbsSurface R), valid c /\ nf_create_torus 3%R 1%R ns_new = Ok s0 /\ ne_extrude c (mkP 0 0 1)%R s0 = Ok s /\ svalid s /\ ns_closedV s = true /\
  forall u, (0 <= u <= 1)%R -> exists p q, spoint_of (ns_evaluate s u 0%R) = Ok p /\ spoint_of (ns_evaluate s u 1%R) = Ok q /\ dist3 p q = 1%R.
Proof. exact stale_flag. Qed.
Print Assumptions C96_stale_flag_refuted.
