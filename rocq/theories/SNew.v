(** New objects, and the calls that fill a cubic Bezier triangle. *)
From Coq Require Import ZArith List Bool.
From Verif Require Import Base Num MGeometry MNurbs MNurbsSurface MBezier.
Import ListNotations.
Open Scope Z_scope.

(** A curve and a surface without any data. *)
Definition empty_curve {T} (c : NurbsCurve T) : Prop := nc_degree c = 0 /\ nc_nb c = 0 /\ nc_knots c = [] /\ nc_weights c = [] /\ nc_points c = [].
Definition empty_surface {T} (s : NurbsSurface T) : Prop :=
  ns_degU s = 0 /\ ns_degV s = 0 /\ ns_nbU s = 0 /\ ns_nbV s = 0 /\ ns_knotsU s = [] /\ ns_knotsV s = [] /\ ns_weights s = [] /\ ns_points s = [].

(** The calls on a cubic Bezier triangle. *)
Inductive bop (T : Type) :=
| BPoints (P1 P2 P3 : Point3 T) | BControls (p12 p21 p13 p31 p23 p32 : Point3 T) | BCenter (p : Point3 T).
Arguments BPoints {T}. Arguments BControls {T}. Arguments BCenter {T}.
Definition bdo {T} (c : CBT T) (o : bop T) : CBT T :=
  match o with
  | BPoints a b d => cbt_set_points c a b d
  | BControls a b d e f g => cbt_set_control_points c a b d e f g
  | BCenter p => cbt_set_control_center c p
  end.
(** What the last call of each kind set, the latest call first; the origin when there was none. *)
Fixpoint last_points {T} {N : Num T} (l : list (bop T)) : list (Point3 T) :=
  match l with [] => repeat P0 3 | BPoints a b d :: _ => [a; b; d] | _ :: l => last_points l end.
Fixpoint last_controls {T} {N : Num T} (l : list (bop T)) : list (Point3 T) :=
  match l with [] => repeat P0 6 | BControls a b d e f g :: _ => [a; b; d; e; f; g] | _ :: l => last_controls l end.
Fixpoint last_center {T} {N : Num T} (l : list (bop T)) : Point3 T :=
  match l with [] => P0 | BCenter p :: _ => p | _ :: l => last_center l end.
