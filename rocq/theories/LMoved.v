(** Transforming and then meshing is meshing and then transforming. *)
From Coq Require Import ZArith List Bool Reals Lra Lia.
From Verif Require Import Base Num MGeometry MKernel MMesh MNurbs MNurbsSurface SGeom SNurbs SSurface SMesh SReach LBase LMesh LGrid LSurf LSurfMesh LNurbs2 LNurbs6 LNurbsEx LSolidMesh LSurfFinal SSolid.
Import ListNotations.
Open Scope Z_scope.

Definition moved {T} (f : Point3 T -> Point3 T) (m : Mesh T) : Mesh T := mkMesh (mkK (map f (kverts (mkern m))) (ktris (mkern m))) (mcolor m).

Lemma moved_clear {T} f (m : Mesh T) : clear (moved f m) = clear m.
Proof. reflexivity. Qed.
Lemma moved_push {T} f (m : Mesh T) vs ts : moved f (push_tris (push_verts m vs) ts) = push_tris (push_verts (moved f m) (map f vs)) ts.
Proof. unfold moved, push_tris, push_verts. cbn. rewrite map_app. reflexivity. Qed.
Lemma flat_map_ext_in {A B} (f g : A -> list B) l : (forall x, In x l -> f x = g x) -> flat_map f l = flat_map g l.
Proof. induction l as [|x l IH]; intros H; cbn; [reflexivity|]. rewrite (H x (or_introl eq_refl)), IH by (intros; apply H; right; assumption). reflexivity. Qed.
Lemma map_flat_map {A B C} (h : B -> C) (g : A -> list B) l : map h (flat_map g l) = flat_map (fun x => map h (g x)) l.
Proof. induction l as [|x l IH]; cbn; [reflexivity|]. rewrite map_app, IH. reflexivity. Qed.
Lemma in_zrange x a b : In x (zrange a b) -> a <= x < b.
Proof. unfold zrange. rewrite in_map_iff. intros (k & <- & H). apply in_seq in H. lia. Qed.
Lemma grid_par u n : 0 < n -> 0 <= u < n + 1 -> (0 <= IZR u / IZR n <= 1)%R.
Proof.
  intros Hn H. assert (0 < IZR n)%R by (apply IZR_lt; lia). assert (0 <= IZR u)%R by (apply IZR_le; lia). assert (IZR u <= IZR n)%R by (apply IZR_le; lia).
  split; [apply Rmult_le_pos; [lra|left; apply Rinv_0_lt_compat; lra]|]. apply (Rmult_le_reg_r (IZR n)); [lra|]. unfold Rdiv. rewrite Rmult_assoc, Rinv_l, Rmult_1_l, Rmult_1_r by lra. lra.
Qed.
Lemma surf_verts_moved s f nU nV : svalid s -> affine3 f -> 0 < nU -> 0 < nV -> surf_verts (ns_apply_transform s f) nU nV = map f (surf_verts s nU nV).
Proof.
  intros V A HU HV. unfold surf_verts. rewrite map_flat_map. apply flat_map_ext_in. intros v Hv. apply in_zrange in Hv.
  unfold surf_row. rewrite map_flat_map. apply flat_map_ext_in. intros u Hu. apply in_zrange in Hu. cbn [map]. f_equal. apply surf_affine; [exact V|apply grid_par; lia|apply grid_par; lia|exact A].
Qed.
Lemma to_mesh_moved s m seg b f : svalid s -> 0 < seg -> meshable seg s -> affine3 f ->
  nu_to_mesh (ns_apply_transform s f) (moved f m) seg b = (do m' <- nu_to_mesh s m seg b; Ok (moved f m')).
Proof.
  intros V S MS A. destruct (to_mesh_ok s m seg b V S MS) as (HU & HV & ->). cbn [bind].
  destruct (to_mesh_ok (ns_apply_transform s f) (moved f m) seg b (svalid_map s f V) S MS) as (_ & _ & ->). f_equal.
  rewrite moved_push. change (ns_nbU (ns_apply_transform s f)) with (ns_nbU s). change (ns_nbV (ns_apply_transform s f)) with (ns_nbV s).
  rewrite surf_verts_moved by assumption. destruct b; [reflexivity|].
  f_equal. unfold nb_vertices, k_nbv, moved. cbn. rewrite vsize_map. reflexivity.
Qed.
Lemma for_commute {S} (h : S -> S) a b (f g : Z -> S -> res S) s : (forall i s, a <= i < b -> g i (h s) = (do x <- f i s; Ok (h x))) ->
  for_ a b g (h s) = (do x <- for_ a b f s; Ok (h x)).
Proof.
  remember (Z.to_nat (b - a)) as n eqn:En. revert a s En. induction n as [|n IH]; intros a s En H.
  - rewrite !for_empty by lia. reflexivity.
  - rewrite !for_step by lia. rewrite H by lia. destruct (f a s) as [x|e]; cbn [bind]; [|reflexivity]. apply IH; [lia|]. intros; apply H; lia.
Qed.
Lemma solid_to_mesh_moved ss m seg f : Forall svalid ss -> 0 < seg -> Forall (meshable seg) ss -> affine3 f ->
  nu_solid_to_mesh (solid_apply_transform ss f) m seg = (do m' <- nu_solid_to_mesh ss m seg; Ok (moved f m')).
Proof.
  intros V S MS A. unfold nu_solid_to_mesh, solid_apply_transform. rewrite vsize_map. change (clear m) with (moved f (clear m)) at 1. apply for_commute.
  intros i m1 Hi. rewrite vget_map. destruct (vget_in_range ss i Hi) as [s G]. rewrite G. cbn [bind]. apply to_mesh_moved; [|exact S| |exact A].
  - rewrite Forall_forall in V. apply V. exact (vget_In _ _ _ G).
  - rewrite Forall_forall in MS. apply MS. exact (vget_In _ _ _ G).
Qed.
Lemma apply_moved {T} {N : Num T} (m : Mesh T) f : apply_transform m f = Ok (moved f m).
Proof. exact (apply_transform_spec m f). Qed.
Lemma surface_move_mesh s m m0 seg b f : svalid s -> 0 < seg -> meshable seg s -> affine3 f -> apply_transform m f = Ok m0 ->
  exists m1 m2, nu_to_mesh s m seg b = Ok m1 /\ apply_transform m1 f = Ok m2 /\ nu_to_mesh (ns_apply_transform s f) m0 seg b = Ok m2.
Proof.
  intros V S MS A E0. rewrite apply_moved in E0. injection E0 as <-. destruct (to_mesh_ok s m seg b V S MS) as (_ & _ & E). do 2 eexists. split; [exact E|]. split; [apply apply_moved|].
  rewrite (to_mesh_moved s m seg b f V S MS A), E. reflexivity.
Qed.
Lemma solid_move_mesh ss m seg f : Forall svalid ss -> 0 < seg -> Forall (meshable seg) ss -> affine3 f ->
  exists m1 m2, nu_solid_to_mesh ss m seg = Ok m1 /\ apply_transform m1 f = Ok m2 /\ nu_solid_to_mesh (solid_apply_transform ss f) m seg = Ok m2.
Proof.
  intros V S MS A. destruct (solid_to_mesh_ok ss m seg V S MS) as (m1 & E & _). exists m1, (moved f m1). split; [exact E|]. split; [apply apply_moved|].
  rewrite (solid_to_mesh_moved ss m seg f V S MS A), E. reflexivity.
Qed.
Lemma solid_move_points ss f k s u v : Forall svalid ss -> affine3 f -> vget ss k = Ok s -> (0 <= u <= 1)%R -> (0 <= v <= 1)%R ->
  vsize (solid_apply_transform ss f) = vsize ss /\ exists s' p, vget (solid_apply_transform ss f) k = Ok s' /\ svalid s' /\ spoint_of (ns_evaluate s u v) = Ok p /\ spoint_of (ns_evaluate s' u v) = Ok (f p).
Proof.
  intros V A G HU HV. unfold solid_apply_transform. split; [apply vsize_map|]. exists (ns_apply_transform s f), (surf_at s u v). rewrite vget_map, G. cbn [bind].
  assert (svalid s) as VS by (rewrite Forall_forall in V; apply V; exact (vget_In _ _ _ G)). split; [reflexivity|]. split; [apply svalid_map, VS|].
  split; [apply ns_evaluate_formula; assumption|]. rewrite ns_evaluate_formula by (try apply svalid_map; assumption). rewrite surf_affine by assumption. reflexivity.
Qed.
Lemma polyline_move c f : valid c -> affine3 f ->
  exists l c1 c2, nc_to_polyline c = Ok (l, c1) /\ nc_to_polyline (nc_points_ref c (map f (nc_points c))) = Ok (map f l, c2).
Proof.
  intros V A. destruct (polyline_ok c V) as (l & c1 & E1 & _ & S1 & H1). destruct (polyline_ok _ (points_ref_valid c f V)) as (l2 & c2 & E2 & _ & S2 & H2).
  exists l, c1, c2. split; [exact E1|]. rewrite E2. do 2 f_equal.
  assert (vsize (nc_points (nc_points_ref c (map f (nc_points c)))) = vsize (nc_points c)) as N by (unfold nc_points_ref; cbn [nc_points]; apply vsize_map). rewrite N in S2, H2.
  apply vget_ext; [rewrite vsize_map; congruence|]. intros i Hi. rewrite vget_map, H1, H2 by lia. cbn [bind]. rewrite nurbs_affine; [reflexivity|exact V| |exact A].
  apply grid_par; [|lia]. assert (0 < vsize (nc_points c)); [|lia]. destruct V as (_ & _ & (? & _) & _). lia.
Qed.
