(** New objects. *)
From Coq Require Import ZArith List Bool Reals Lra Lia.
From Verif Require Import Base Num MGeometry MKernel MMesh MNurbs MNurbsSurface MBezier MRender SMesh SReach SGeom SNew LBase LMesh LReach LRender5.
Import ListNotations.
Open Scope Z_scope.

Lemma new_curve {T} {N : Num T} : empty_curve (@nc_new T) /\ (forall c : NurbsCurve T, empty_curve (nc_clear c)) /\
  (forall (c : NurbsCurve T) u, empty_curve c -> nc_evaluate c u = Err FAssert).
Proof.
  split; [repeat split|]. split; [repeat split|]. intros c u (A & B & C & D & E). unfold nc_evaluate. rewrite A, B, C, D. reflexivity.
Qed.
Lemma new_surface {T} {N : Num T} : empty_surface (@ns_new T) /\ ns_closedU (@ns_new T) = false /\ ns_closedV (@ns_new T) = false /\ (forall s : NurbsSurface T, empty_surface (ns_clear s)) /\
  (forall (s : NurbsSurface T) u v, empty_surface s -> ns_evaluate s u v = Err FAssert).
Proof.
  split; [repeat split|]. split; [reflexivity|]. split; [reflexivity|]. split; [repeat split|]. intros s u v (A & B & C & D & E & F & G & H). unfold ns_evaluate. rewrite A, B, C, D, E, F, G, H. reflexivity.
Qed.

Lemma patch_calls {T} {N : Num T} (l : list (bop T)) : let c := fold_left bdo l cbt_new in
  [cP1 c; cP2 c; cP3 c] = last_points (rev l) /\ [c12 c; c21 c; c13 c; c31 c; c23 c; c32 c] = last_controls (rev l) /\ ccenter c = last_center (rev l).
Proof.
  cbv zeta. rewrite <- fold_left_rev_right. induction (rev l) as [|o r IH]; [repeat split|]. cbn [fold_right]. destruct IH as (A & B & C).
  set (c := fold_right (fun y x => bdo x y) cbt_new r) in *. destruct o; cbn; auto.
Qed.

Lemma face_ctor {T} {N : Num T} (m : Mesh T) (a : AMesh T) (col : Z) : reach m -> shows m a -> exists f, face_of_mesh m = Ok f /\ fcolor f = 8421504 /\
  shows (fmesh f) (mkA (averts a) (map (fun t => (t, true)) (live a)) (acolor a)) /\ fmesh (face_set_color f col) = fmesh f /\ fcolor (face_set_color f col) = col.
Proof. intros Rm S. destruct (copy_shows m a Rm S mesh_new) as (m' & _ & E & S'). exists (mkFace m' 8421504). unfold face_of_mesh. rewrite E. split; [reflexivity|]. split; [reflexivity|]. split; [exact S'|]. split; reflexivity. Qed.
Lemma solid_ctor {T} {N : Num T} (m : Mesh T) (a : AMesh T) : reach m -> shows m a -> exists s, solid_of_mesh m = Ok s /\ sfaces s = [] /\
  shows (smesh s) (mkA (averts a) (map (fun t => (t, true)) (live a)) (acolor a)).
Proof. intros Rm S. destruct (copy_shows m a Rm S mesh_new) as (m' & _ & E & S'). exists (mkSolid m' []). unfold solid_of_mesh. rewrite E. split; [reflexivity|]. split; [reflexivity|exact S']. Qed.
Lemma new_face_solid {T} {N : Num T} : shows (fmesh (@face_new T)) (mkA [] [] (-1)) /\ fcolor (@face_new T) = 8421504 /\
  shows (smesh (@solid_new T)) (mkA [] [] (-1)) /\ sfaces (@solid_new T) = [].
Proof. split; [exact (shows_abs mesh_new)|]. split; [reflexivity|]. split; [exact (shows_abs mesh_new)|reflexivity]. Qed.

Lemma segment_length (s : Segment3 R) : seg_norm s = Ok (dist3 (s1 s) (s2 s)) /\ seg_norm_square s = (dist3 (s1 s) (s2 s) * dist3 (s1 s) (s2 s))%R.
Proof.
  assert (0 <= dot3 (sub3 (s1 s) (s2 s)) (sub3 (s1 s) (s2 s)))%R as P. { unfold dot3. set (x := px _). set (y := py _). set (z := pz _). nra. }
  split.
  - unfold seg_norm, norm, dist3, len3. cbn. destruct (Rlt_dec _ 0) as [L|L]; [exfalso; unfold dot3, sub3 in P; cbn in P; lra|reflexivity].
  - unfold dist3, len3. rewrite sqrt_sqrt by exact P. reflexivity.
Qed.
Lemma null_plane (p : pt3) : plane_distance plane_default p = 0%R.
Proof. unfold plane_distance, plane_default. cbn. ring. Qed.
