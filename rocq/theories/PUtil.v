(** Properties C11, C22-C25, C85: mesh utilities, over the reals. *)
From Coq Require Import ZArith List Bool Reals Lra Sorted.
From Verif Require Import Base Num MGeometry MKernel MMesh MMeshRun MMeasure MUtil SMesh SReach SGeom SMeasure SUtil
  LBase LMesh LReach LGeom LMeasure LMeasure2 LMeasureEx LGrid LUtil LMerge LTess LSplit LBoolean LUtilEx LGeom2 LGeomEx.
Import ListNotations.
Open Scope Z_scope.

(** C11, in full: two linked triangles sharing the edge [v1 v2] are replaced by four covering them, and a
    closed mesh stays closed.  This is false: whenever the two triangles run along the edge in opposite
    directions, as in every closed mesh, the call either stops on its assertion or leaves a mesh that is not closed. *)
Theorem C11_split_edge_opens : forall (m : Mesh R) (a : AMesh R) (it1 it2 v1 v2 s x y : Z) (t1 t2 : triple),
  reach m -> shows m a -> 0 <= it1 -> 0 <= it2 -> it1 <> it2 ->
  nth_error (atris a) (Z.to_nat it1) = Some (t1, true) -> nth_error (atris a) (Z.to_nat it2) = Some (t2, true) ->
  is_rot t1 v1 v2 x -> is_rot t2 v2 v1 y -> NoDup [v1; v2; x; y; s] -> 0 <= s < len (averts a) ->
  (forall t, In t (live a) -> let '(p, q, r) := t in p <> s /\ q <> s /\ r <> s) ->
  split_edge_with_vertex m it1 it2 v1 v2 s = Err FAssert \/
  exists m' a', split_edge_with_vertex m it1 it2 v1 v2 s = Ok m' /\ shows m' a' /\ ~ index_closed (live a').
Proof. exact split_edge_open. Qed.
Print Assumptions C11_split_edge_opens.
Theorem C11_refuted : exists (m m' : Mesh R) a a', reach m /\ shows m a /\ index_closed (live a) /\
  nth_error (atris a) 1 = Some ((0, 1, 3), true) /\ nth_error (atris a) 0 = Some ((0, 2, 1), true) /\
  split_edge_with_vertex m 1 0 0 1 4 = Ok m' /\ shows m' a' /\ ~ index_closed (live a').
Proof. exact split_edge_refuted. Qed.
Print Assumptions C11_refuted.
Example C11_case : is_rot (0, 1, 3) 0 1 3 /\ is_rot (0, 2, 1) 1 0 2 /\ NoDup [0; 1; 3; 2; 4] /\ len (averts tetra5_abs) = 5 /\
  (forall t, In t (live tetra5_abs) -> let '(p, q, r) := t in p <> 4 /\ q <> 4 /\ r <> 4).
Proof.
  split; [left; reflexivity|]. split; [right; left; reflexivity|]. split; [repeat constructor; cbn; intuition discriminate|].
  split; [reflexivity|exact split_edge_hypotheses].
Qed.

(** C22. [ks] lists the ids of the vertices that stay, [f] sends an old id to its new one. *)
Theorem C22_merge_vertices_sound : forall (m : Mesh R) (a : AMesh R) (tol : R), reach m -> shows m a ->
  exists m' ks f, merge_vertices m tol = Ok m' /\ reach m' /\
    shows m' (mkA (map (fun k => pt a k O3) ks) (map (fun t => (map_triple f t, true)) (live a)) (acolor a)) /\
    StronglySorted Z.lt ks /\ (forall k, In k ks -> 0 <= k < len (averts a)) /\
    (forall i j, In i ks -> In j ks -> i <> j -> ~ short tol (pt a i O3) (pt a j O3)) /\
    (forall i, 0 <= i < len (averts a) -> exists k, 0 <= f i /\ nth_error ks (Z.to_nat (f i)) = Some k /\
       (k = i \/ k < i /\ short tol (pt a i O3) (pt a k O3))).
Proof. exact merge_exact. Qed.
Print Assumptions C22_merge_vertices_sound.
(** With a tolerance of 2 every vertex of the tetrahedron is near the first one. *)
Example C22_case : exists m : Mesh R, reach m /\ shows m tetra_abs /\ short 2 (pt tetra_abs 3 O3) (pt tetra_abs 0 O3).
Proof.
  destruct tetra_exists as [m [R [S _]]]. exists m. split; [exact R|]. split; [exact S|].
  unfold short. rewrite (Rabs_right 2) by lra.
  change (dist3 (mkP 0 0 1) (mkP 0 0 0) < 2)%R.
  assert (dist3 (mkP 0 0 1) (mkP 0 0 0) = sqrt 1)%R as -> by (unfold dist3, len3, dot3, sub3; cbn [px py pz]; f_equal; ring).
  rewrite sqrt_1. lra.
Qed.

(** C23. *)
Theorem C23_remove_empty_exact : forall (m : Mesh R) (a : AMesh R) (tol : R), reach m -> shows m a ->
  exists m' a', remove_empty_triangles m tol = Ok m' /\ reach m' /\ shows m' a' /\
    averts a' = averts a /\ acolor a' = acolor a /\
    Forall2 (fun t t' => fst t' = fst t /\ (snd t' = true <-> snd t = true /\ ~ thin tol (corners a (fst t)))) (atris a) (atris a').
Proof. exact remove_empty_exact. Qed.
Print Assumptions C23_remove_empty_exact.
(** With tolerance 5/4 the three triangles at the right-angle corner go, the fourth stays. *)
Example C23_case : thin (5/4)%R (corners tetra_abs (0, 2, 1)) /\ ~ thin (5/4)%R (corners tetra_abs (1, 2, 3)).
Proof.
  assert (forall p q : pt3, short (5/4) p q <->
    ((px p - px q) * (px p - px q) + (py p - py q) * (py p - py q) + (pz p - pz q) * (pz p - pz q) < 25/16)%R) as K.
  { intros p q. unfold short, dist3. rewrite (Rabs_right (5/4)) by lra.
    set (u := len3 _). 
    assert (0 <= u)%R as U by apply sqrt_pos.
    assert (u * u = (px p - px q) * (px p - px q) + (py p - py q) * (py p - py q) + (pz p - pz q) * (pz p - pz q))%R as <-.
    { unfold u, len3. rewrite sqrt_sqrt; [unfold dot3, sub3; cbn [px py pz]; ring|]. unfold dot3. pose proof (Rle_0_sqr (px (sub3 p q))). pose proof (Rle_0_sqr (py (sub3 p q))). pose proof (Rle_0_sqr (pz (sub3 p q))). unfold Rsqr in *. lra. }
    split; intros; Psatz.nra. }
  change (thin (5/4) (mkP 0 0 0, mkP 0 1 0, mkP 1 0 0) /\ ~ thin (5/4) (mkP 1 0 0, mkP 0 1 0, mkP 0 0 1))%R.
  unfold thin. rewrite !K. cbn [px py pz]. split; [left; lra|intros [?|[?|?]]; lra].
Qed.

(** C24. *)
Theorem C24_height_field_cells_partial : forall (vz : list R) (sx sy : Z) (m : Mesh R), 1 <= sx -> 1 <= sy -> sx * sy = vsize vz -> vsize vz <= int_max ->
  exists m', create_from_z vz sx sy m = Ok m' /\ (reach m -> reach m') /\ nb_vertices m' = sx * sy /\
    (forall x y, 0 <= x < sx -> 0 <= y < sy -> exists z, vget vz (x + sx * y) = Ok z /\
       get_vertex m' (x + sx * y) = Ok (mkP (nofZ x) (nofZ y) z)) /\
    nb_triangles m' = 2 * (sx - 1) * (sy - 1) /\
    (forall i j, 0 <= i < sx - 1 -> 0 <= j < sy - 1 -> let t := 2 * (i + (sx - 1) * j) in
       get_triangle_vertices m' t = Ok (i + sx * j, i + 1 + sx * j, i + 1 + sx * (j + 1)) /\
       get_triangle_vertices m' (t + 1) = Ok (i + 1 + sx * (j + 1), i + sx * (j + 1), i + sx * j) /\
       is_triangle_unlinked m' t = Ok false /\ is_triangle_unlinked m' (t + 1) = Ok false).
Proof. exact create_from_z_facts. Qed.
Print Assumptions C24_height_field_cells_partial.
(** Consistent orientation: every normal points up. *)
Theorem C24_height_field_faces_up_partial : forall (vz : list R) (sx sy : Z) (m : Mesh R), reach m -> 1 <= sx -> 1 <= sy -> sx * sy = vsize vz -> vsize vz <= int_max ->
  exists m', create_from_z vz sx sy m = Ok m' /\ nb_triangles m' = 2 * (sx - 1) * (sy - 1) /\
  forall t, 0 <= t < nb_triangles m' -> exists p q r, get_triangle m' t = Ok (mkTri p q r) /\
    pz (cross3 (sub3 q p) (sub3 r p)) = 1%R.
Proof. exact height_field_up. Qed.
Print Assumptions C24_height_field_faces_up_partial.
Theorem C24_grid_cells_partial : forall (vp : list (Point3 R)) (sx sy : Z) (m : Mesh R), 1 <= sx -> 1 <= sy -> sx * sy = vsize vp -> vsize vp <= int_max ->
  exists m', create_from_grid vp sx sy m = Ok m' /\ (reach m -> reach m') /\ nb_vertices m' = sx * sy /\
    (forall i, 0 <= i < sx * sy -> get_vertex m' i = vget vp i) /\
    nb_triangles m' = 2 * (sx - 1) * (sy - 1) /\
    (forall i j, 0 <= i < sx - 1 -> 0 <= j < sy - 1 -> let t := 2 * (i + (sx - 1) * j) in
       get_triangle_vertices m' t = Ok (i + sx * j, i + 1 + sx * j, i + 1 + sx * (j + 1)) /\
       get_triangle_vertices m' (t + 1) = Ok (i + 1 + sx * (j + 1), i + sx * (j + 1), i + sx * j) /\
       is_triangle_unlinked m' t = Ok false /\ is_triangle_unlinked m' (t + 1) = Ok false).
Proof. exact create_from_grid_facts. Qed.
Print Assumptions C24_grid_cells_partial.
(** Wrong sizes stop on the assertion, nothing is read out of range ... *)
Theorem C24_size_mismatch_stops : forall (vz : list R) (vp : list (Point3 R)) (sx sy : Z) (m : Mesh R), int_min <= sx * sy <= int_max ->
  (sx * sy <> vsize vz -> create_from_z vz sx sy m = Err FAssert) /\
  (sx * sy <> vsize vp -> create_from_grid vp sx sy m = Err FAssert).
Proof. exact grid_size_mismatch. Qed.
Print Assumptions C24_size_mismatch_stops.
(** ... unless the product of the sizes overflows, in which case the assertion itself is undefined. *)
Theorem C24_large_sizes_refuted : forall (vz : list R) (vp : list (Point3 R)) (sx sy : Z) (m : Mesh R), ~ int_min <= sx * sy <= int_max ->
  create_from_z vz sx sy m = Err FOverflow /\ create_from_grid vp sx sy m = Err FOverflow.
Proof. exact grid_size_overflow. Qed.
Print Assumptions C24_large_sizes_refuted.
Example C24_case_large : ~ int_min <= 65536 * 65536 <= int_max.
Proof. unfold int_max. intros [_ H]. apply H. reflexivity. Qed.
Example C24_case : 1 <= 3 /\ 1 <= 2 /\ 3 * 2 = vsize [0; 1; 0; 2; 5; 2]%R /\ vsize [0; 1; 0; 2; 5; 2]%R <= int_max.
Proof. repeat split; discriminate || reflexivity. Qed.

(** C25. *)
Theorem C25_tessellation_keeps_shape : forall (m mo : Mesh R) (a : AMesh R) (n : Z), reach m -> shows m a -> reach mo -> 1 <= n ->
  exists m' a' cut, tessellate m n mo = Ok m' /\ reach m' /\ shows m' a' /\
    (forall f, cuts n f (cut f)) /\ faces a' = flat_map cut (faces a) /\
    averts a' = flat_map (fun f => let '(p, q, r) := f in [p; q; r]) (faces a') /\
    nb_triangles m' = n * n * len (live a) /\ nb_vertices m' = 3 * n * n * len (live a) /\
    surface m' = surface m /\ volume m' = volume m.
Proof. exact tessellate_exact. Qed.
Print Assumptions C25_tessellation_keeps_shape.
Theorem C25_tessellation_nonpositive : forall (m mo : Mesh R) (n : Z), reach m -> n <= 0 -> tessellate m n mo = Ok (clear mo).
Proof. exact tessellate_nonpos. Qed.
Print Assumptions C25_tessellation_nonpositive.
Example C25_case : exists m : Mesh R, reach m /\ shows m tetra_abs /\ 1 <= 3 /\ len (live tetra_abs) = 4.
Proof. destruct tetra_exists as [m [R [S _]]]. exists m. split; [exact R|]. split; [exact S|]. split; [discriminate|reflexivity]. Qed.

(** C85, in full: the pieces of A and B have the same total surface as A and B, for all meshes.
    False: C85_refuted (the surface grows) and C85_bad_id_refuted (an id that does not exist is used).
    Proved: nothing changes when no vertex of one mesh lies in the plane of a face of the other. *)
Theorem C85_split_meshes_partial : forall (A B Ao Bo : Mesh R) (a b : AMesh R), reach A -> reach B -> shows A a -> shows B b ->
  Forall (fun t => snd t = true) (atris a) -> Forall (fun t => snd t = true) (atris b) -> off_each_other a b ->
  split_meshes A B = Ok (Ao, Bo) ->
  shows Ao a /\ shows Bo b /\ surface Ao = surface A /\ surface Bo = surface B.
Proof. exact split_meshes_general. Qed.
Print Assumptions C85_split_meshes_partial.
Theorem C85_refuted : exists A B Ao : Mesh R, reach A /\ reach B /\ split_meshes A B = Ok (Ao, B) /\
  surface A = Ok (1/2)%R /\ surface Ao = Ok (5/2)%R.
Proof.
  exact (ex_intro _ (one_tri cutA) (ex_intro _ (one_tri cutB) (ex_intro _ cut_result
    (conj (one_tri_reach cutA) (conj (one_tri_reach cutB) split_meshes_grows))))).
Qed.
Print Assumptions C85_refuted.
Theorem C85_bad_id_refuted : exists A B : Mesh R, reach A /\ reach B /\ split_meshes A B = Err FAssert.
Proof. exact split_meshes_bad_id. Qed.
Print Assumptions C85_bad_id_refuted.
Example C85_case : off_each_other (one_abs unit_tri) (one_abs gpB) /\
  split_meshes (one_tri unit_tri) (one_tri gpB) = Ok (one_tri unit_tri, one_tri gpB).
Proof. split; [exact off_example|exact split_meshes_ok_example]. Qed.
