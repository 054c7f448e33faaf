(** C111.  New objects and their setters. *)
From Coq Require Import ZArith List Bool Reals.
From Verif Require Import Base Num MGeometry MKernel MMesh MNurbs MNurbsSurface MBezier MRender SMesh SReach SGeom SNew LBase LMesh LReach LNew PMesh.
Import ListNotations.
Open Scope Z_scope.

(** A new curve, and one after clear(), holds nothing; evaluating such a curve stops on an assertion for every parameter. *)
Theorem C111_new_curve : forall {T} {N : Num T}, empty_curve (@nc_new T) /\ (forall c : NurbsCurve T, empty_curve (nc_clear c)) /\
  (forall (c : NurbsCurve T) u, empty_curve c -> nc_evaluate c u = Err FAssert).
Proof. intros T N. exact new_curve. Qed.
Print Assumptions C111_new_curve.
Theorem C111_new_surface : forall {T} {N : Num T}, empty_surface (@ns_new T) /\ ns_closedU (@ns_new T) = false /\ ns_closedV (@ns_new T) = false /\
  (forall s : NurbsSurface T, empty_surface (ns_clear s)) /\
  (forall (s : NurbsSurface T) u v, empty_surface s -> ns_evaluate s u v = Err FAssert).
Proof. intros T N. exact new_surface. Qed.
Print Assumptions C111_new_surface.

(** However the setters of a cubic Bezier triangle are called, it holds what the last call of each kind set. *)
Theorem C111_patch_setters : forall {T} {N : Num T} (l : list (bop T)), let c := fold_left bdo l cbt_new in
  [cP1 c; cP2 c; cP3 c] = last_points (rev l) /\ [c12 c; c21 c; c13 c; c31 c; c23 c; c32 c] = last_controls (rev l) /\ ccenter c = last_center (rev l).
Proof. intros T N. exact patch_calls. Qed.
Print Assumptions C111_patch_setters.
Example C111_patch_case : let p k := mkP (IZR k) 0%R 0%R in let c := fold_left bdo [BCenter (p 1); BPoints (p 2) (p 3) (p 4); BCenter (p 5)] cbt_new in
  cP2 c = p 3 /\ ccenter c = p 5 /\ c12 c = P0.
Proof. repeat split. Qed.

(** Making a face or a solid of a mesh copies its vertices, its live triangles and its colour; the face is grey until set_color, which changes nothing else. *)
Theorem C111_face_of_mesh : forall {T} {N : Num T} (m : Mesh T) (a : AMesh T) (col : Z), reach m -> shows m a -> exists f, face_of_mesh m = Ok f /\ fcolor f = 8421504 /\
  shows (fmesh f) (mkA (averts a) (map (fun t => (t, true)) (live a)) (acolor a)) /\ fmesh (face_set_color f col) = fmesh f /\ fcolor (face_set_color f col) = col.
Proof. intros T N. exact face_ctor. Qed.
Print Assumptions C111_face_of_mesh.
Theorem C111_solid_of_mesh : forall {T} {N : Num T} (m : Mesh T) (a : AMesh T), reach m -> shows m a -> exists s, solid_of_mesh m = Ok s /\ sfaces s = [] /\
  shows (smesh s) (mkA (averts a) (map (fun t => (t, true)) (live a)) (acolor a)).
Proof. intros T N. exact solid_ctor. Qed.
Print Assumptions C111_solid_of_mesh.
Theorem C111_new_face_solid : forall {T} {N : Num T}, shows (fmesh (@face_new T)) (mkA [] [] (-1)) /\ fcolor (@face_new T) = 8421504 /\
  shows (smesh (@solid_new T)) (mkA [] [] (-1)) /\ sfaces (@solid_new T) = [].
Proof. intros T N. exact new_face_solid. Qed.
Print Assumptions C111_new_face_solid.
Example C111_face_case : reach ex_mesh /\ shows ex_mesh (abs ex_mesh) /\ live (abs ex_mesh) = [(2, 1, 0)].
Proof. split; [exact ex_mesh_reach|]. split; [apply shows_abs|reflexivity]. Qed.

(** The length of a segment is the distance of its ends, and norm_square is its square. *)
Theorem C111_segment_length : forall s : Segment3 R, seg_norm s = Ok (dist3 (s1 s) (s2 s)) /\ seg_norm_square s = (dist3 (s1 s) (s2 s) * dist3 (s1 s) (s2 s))%R.
Proof. exact segment_length. Qed.
Print Assumptions C111_segment_length.
(** A new plane is degenerate: every point is at distance zero. *)
Theorem C111_new_plane : forall p : pt3, plane_distance plane_default p = 0%R.
Proof. exact null_plane. Qed.
Print Assumptions C111_new_plane.
