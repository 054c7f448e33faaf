(** Specification of NURBS surfaces: the tensor-product rational formula, validity, surfaces of solids. *)
From Coq Require Import ZArith List Bool Reals.
From Verif Require Import Base Num MGeometry MMesh MNurbs MNurbsSurface SGeom SNurbs.
Import ListNotations.
Open Scope R_scope.

(** Control point and weight of column [i] (u direction) and row [j] (v direction). *)
Definition scp (s : NurbsSurface R) (i j : Z) : pt3 := nth (Z.to_nat (i + ns_nbU s * j)) (ns_points s) O3.
Definition scw (s : NurbsSurface R) (i j : Z) : R := nth (Z.to_nat (i + ns_nbU s * j)) (ns_weights s) 0.

(** A surface that is ready to be evaluated: a full grid of control points and positive weights,
    clamped knots in both directions, and set_degree was called for its degrees. *)
Definition svalid (s : NurbsSurface R) : Prop :=
  vsize (ns_points s) = (ns_nbU s * ns_nbV s)%Z /\ vsize (ns_weights s) = (ns_nbU s * ns_nbV s)%Z /\
  clamped (ns_knotsU s) (ns_degU s) (ns_nbU s) /\ clamped (ns_knotsV s) (ns_degV s) (ns_nbV s) /\
  Forall (fun w => 0 < w) (ns_weights s) /\
  (ns_degU s + 1 <= vsize (ns_tpU s))%Z /\ (ns_degU s + 1 <= vsize (ns_twU s))%Z /\
  (ns_degV s + 1 <= vsize (ns_tpV s))%Z /\ (ns_degV s + 1 <= vsize (ns_twV s))%Z.

(** Sum over all control points of N_i(u) N_j(v) w_ij f_ij. *)
Definition surf_sum (s : NurbsSurface R) (f : Z -> Z -> R) (u v : R) : R :=
  sumZ (fun j => basis (ns_knotsV s) (Z.to_nat (ns_degV s)) j v *
    sumZ (fun i => basis (ns_knotsU s) (Z.to_nat (ns_degU s)) i u * scw s i j * f i j) 0 (Z.to_nat (ns_nbU s)))
    0 (Z.to_nat (ns_nbV s)).
Definition surf_den (s : NurbsSurface R) (u v : R) : R := surf_sum s (fun _ _ => 1) u v.
Definition surf_at (s : NurbsSurface R) (u v : R) : pt3 :=
  let d := surf_den s u v in
  mkP (surf_sum s (fun i j => px (scp s i j)) u v / d) (surf_sum s (fun i j => py (scp s i j)) u v / d)
      (surf_sum s (fun i j => pz (scp s i j)) u v / d).

(** The point returned by evaluate. *)
Definition spoint_of {T} (r : res (Point3 T * NurbsSurface T)) : res (Point3 T) := do x <- r; Ok (fst x).

(** The grid of [seg] segments per control point is small enough for the int arithmetic of to_mesh (46340 is the
    integer part of the square root of INT_MAX). *)
Definition meshable {T} (seg : Z) (s : NurbsSurface T) : Prop := (seg * ns_nbU s <= 46340 /\ seg * ns_nbV s <= int_max)%Z.

(** The client cannot tell the two surfaces apart by their data. *)
Definition same_sdata {T} (s s' : NurbsSurface T) : Prop :=
  ns_degU s' = ns_degU s /\ ns_degV s' = ns_degV s /\ ns_nbU s' = ns_nbU s /\ ns_nbV s' = ns_nbV s /\
  ns_closedU s' = ns_closedU s /\ ns_closedV s' = ns_closedV s /\ ns_knotsU s' = ns_knotsU s /\ ns_knotsV s' = ns_knotsV s /\
  ns_weights s' = ns_weights s /\ ns_points s' = ns_points s.

(** Same data except in the u (respectively v) direction. *)
Definition same_v (s s' : NurbsSurface R) : Prop :=
  ns_degV s' = ns_degV s /\ ns_nbV s' = ns_nbV s /\ ns_knotsV s' = ns_knotsV s /\
  ns_closedU s' = ns_closedU s /\ ns_closedV s' = ns_closedV s.
Definition same_u (s s' : NurbsSurface R) : Prop :=
  ns_degU s' = ns_degU s /\ ns_nbU s' = ns_nbU s /\ ns_knotsU s' = ns_knotsU s /\
  ns_closedU s' = ns_closedU s /\ ns_closedV s' = ns_closedV s.

(** Number of control points of a regular direction (degree 1 or 2, [n] points) once its degree is raised. *)
Definition elev_size (d n : Z) (ks : list R) : Z := (if d =? 1 then 2 * n - 1 else n + spans ks)%Z.

(** Turn about the z axis by the angle of cosine [c] and sine [s] (clockwise, the sense of the code). *)
Definition turn_z (c s : R) (p : pt3) : pt3 := mkP (c * px p + s * py p) (c * py p - s * px p) (pz p).

(** ** Histories of a surface object *)
(** The calls a client can make, except clear(). *)
Inductive sop (T : Type) :=
| SDegree (du dv : Z) | SKnotsU (ks : list T) | SKnotsV (ks : list T) | SUniformU | SUniformV
| SWeights (w : list T) | SEqualWeights | SPoints (p : list (Point3 T)) (nu nv : Z)
| STransform (f : Point3 T -> Point3 T) | SClosedU (b : bool) | SClosedV (b : bool)
| SInsertU (u : T) | SInsertV (v : T) | SElevateU | SElevateV | SEvaluate (u v : T).
Arguments SDegree {T}. Arguments SKnotsU {T}. Arguments SKnotsV {T}. Arguments SUniformU {T}. Arguments SUniformV {T}.
Arguments SWeights {T}. Arguments SEqualWeights {T}. Arguments SPoints {T}. Arguments STransform {T}. Arguments SClosedU {T}. Arguments SClosedV {T}.
Arguments SInsertU {T}. Arguments SInsertV {T}. Arguments SElevateU {T}. Arguments SElevateV {T}. Arguments SEvaluate {T}.
(** What a call returns. *)
Inductive sout (T : Type) := SNone | SBool (b : bool) | SPoint (p : Point3 T).
Arguments SNone {T}. Arguments SBool {T}. Arguments SPoint {T}.

Definition plain {T} (r : res (NurbsSurface T)) : res (NurbsSurface T * sout T) := do s <- r; Ok (s, SNone).
Definition sdo {T} {N : Num T} (s : NurbsSurface T) (o : sop T) : res (NurbsSurface T * sout T) :=
  match o with
  | SDegree du dv => plain (ns_set_degree s du dv)
  | SKnotsU ks => plain (ns_set_knots_u s ks)
  | SKnotsV ks => plain (ns_set_knots_v s ks)
  | SUniformU => plain (ns_set_uniform_u s)
  | SUniformV => plain (ns_set_uniform_v s)
  | SWeights w => plain (Ok (ns_set_weights s w))
  | SEqualWeights => plain (ns_set_equals_weights s)
  | SPoints p nu nv => plain (Ok (ns_set_points s p nu nv))
  | STransform f => plain (Ok (ns_apply_transform s f))
  | SClosedU b => plain (Ok (ns_set_closed_u s b))
  | SClosedV b => plain (Ok (ns_set_closed_v s b))
  | SInsertU u => plain (ns_insert_knot_u s u)
  | SInsertV v => plain (ns_insert_knot_v s v)
  | SElevateU => do r <- ns_degree_elevation_u s; Ok (snd r, SBool (fst r))
  | SElevateV => do r <- ns_degree_elevation_v s; Ok (snd r, SBool (fst r))
  | SEvaluate u v => do r <- ns_evaluate s u v; Ok (snd r, SPoint (fst r))
  end.
Fixpoint sdo_all {T} {N : Num T} (s : NurbsSurface T) (l : list (sop T)) : res (NurbsSurface T * list (sout T)) :=
  match l with
  | [] => Ok (s, [])
  | o :: l => do r <- sdo s o; do q <- sdo_all (fst r) l; Ok (fst q, snd r :: snd q)
  end.
(** The two executions cannot be told apart: same returned values and same data, or the same fault. *)
Definition alike {T} (r r' : res (NurbsSurface T * list (sout T))) : Prop :=
  match r, r' with
  | Ok (s, o), Ok (s', o') => o = o' /\ same_sdata s s'
  | Err e, Err e' => e = e'
  | _, _ => False
  end.

(** ** Meshes of surfaces *)
(** The index after [i] among [0 .. n], going round when the direction is closed. *)
Definition next (closed : bool) (n i : Z) : Z := if closed && (i =? n - 1)%Z then 0%Z else (i + 1)%Z.
(** Triangle [t] of the mesh goes from vertex [a] to vertex [b]. *)
Definition has_edge {T} (m : Mesh T) (t a b : Z) : Prop :=
  exists x y z, get_triangle_vertices m t = Ok (x, y, z) /\ ((a = x /\ b = y) \/ (a = y /\ b = z) \/ (a = z /\ b = x)).
