(** Property C99: moving a NURBS shape moves everything made from it (exact real arithmetic). *)
From Coq Require Import ZArith List Bool Lia Reals Lra.
From Verif Require Import Base Num MGeometry MTransform MKernel MMesh MNurbs MNurbsSurface MNurbsFactory SGeom SNurbs SSurface LNurbsEx LClosed LMoved PNurbs.
Import ListNotations.
Open Scope Z_scope.

(** C99. A moved solid has the moved points ... *)
Theorem C99_solid_points : forall (ss : list (NurbsSurface R)) f k s u v, Forall svalid ss -> affine3 f -> vget ss k = Ok s -> (0 <= u <= 1)%R -> (0 <= v <= 1)%R ->
  vsize (solid_apply_transform ss f) = vsize ss /\ exists s' p, vget (solid_apply_transform ss f) k = Ok s' /\ svalid s' /\ spoint_of (ns_evaluate s u v) = Ok p /\ spoint_of (ns_evaluate s' u v) = Ok (f p).
Proof. exact solid_move_points. Qed.
Print Assumptions C99_solid_points.
(** ... and its mesh is the moved mesh: same triangles, same colour, every vertex moved. *)
Theorem C99_solid_mesh : forall (ss : list (NurbsSurface R)) (m : Mesh R) seg f, Forall svalid ss -> 0 < seg -> Forall (meshable seg) ss -> affine3 f ->
  exists m1 m2, nu_solid_to_mesh ss m seg = Ok m1 /\ apply_transform m1 f = Ok m2 /\ nu_solid_to_mesh (solid_apply_transform ss f) m seg = Ok m2.
Proof. exact solid_move_mesh. Qed.
Print Assumptions C99_solid_mesh.
(** The same for one surface, also when its grid is added to a mesh that is moved too. *)
Theorem C99_surface_mesh : forall (s : NurbsSurface R) (m m0 : Mesh R) seg b f, svalid s -> 0 < seg -> meshable seg s -> affine3 f -> apply_transform m f = Ok m0 ->
  exists m1 m2, nu_to_mesh s m seg b = Ok m1 /\ apply_transform m1 f = Ok m2 /\ nu_to_mesh (ns_apply_transform s f) m0 seg b = Ok m2.
Proof. exact surface_move_mesh. Qed.
Print Assumptions C99_surface_mesh.
(** The polyline of a moved curve. *)
Theorem C99_polyline : forall (c : NurbsCurve R) f, valid c -> affine3 f ->
  exists l c1 c2, nc_to_polyline c = Ok (l, c1) /\ nc_to_polyline (nc_points_ref c (map f (nc_points c))) = Ok (map f l, c2).
Proof. exact polyline_move. Qed.
Print Assumptions C99_polyline.
Example C99_case : exists s, nf_create_torus_solid 3%R 1%R = Ok [s] /\ Forall svalid [s] /\ Forall (meshable 4) [s] /\ vget [s] 0 = Ok s /\
  affine3 (translation (mkP 1 2 3)%R) /\ affine3 (scale 2 3 4)%R.
Proof.
  destruct (torus_solid_size 3 1) as (s & E & V & NU & NV). exists s. split; [exact E|]. split; [constructor; [exact V|constructor]|].
  split; [constructor; [unfold meshable, int_max; lia|constructor]|]. split; [reflexivity|]. destruct (transforms_affine (mkP 1 2 3)%R 2 3 4 mat_id quat_id (mkEuler 0 0 0 0 0 0)%R) as (A & B & _). split; [exact A|exact B].
Qed.
Example C99_curve_case : exists c, build 2 ex_pts ex_ws = Ok c /\ valid c.
Proof. exact C45_case. Qed.
