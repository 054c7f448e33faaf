(** Properties C09 (geometry), C10, C12, C16-C18, C20, C21: area, volume and closedness of meshes, over the reals. *)
From Coq Require Import ZArith List Bool Reals Lra Permutation.
From Verif Require Import Base Num MGeometry MKernel MMesh MMeshRun MMeasure MTransform SMesh SReach SGeom SMeasure
  LBase LMesh LReach LGeom LTransform LMeasure LMeasure2 LMeasureEx.
Import ListNotations.
Open Scope R_scope.

(** All theorems below range over every reachable mesh [m] and the list view [a] it shows to its client. *)

(** C09. The flipped triangle has the opposite normal and signed volume, the rest of the mesh counts as before. *)
Theorem C09_flip_reverses_orientation : forall (m : Mesh R) (a : AMesh R) (i x y z : Z), reach m -> shows m a -> (0 <= i)%Z ->
  nth_error (atris a) (Z.to_nat i) = Some ((x, y, z), true) ->
  let p := pt a x O3 in let q := pt a y O3 in let r := pt a z O3 in
  exists m', flip_triangle m i = Ok m' /\
    get_triangle m i = Ok (mkTri p q r) /\
    get_triangle m' (nb_triangles m) = Ok (mkTri p r q) /\
    orthogonal (mkTri p r q) = scal3 (-1) (orthogonal (mkTri p q r)) /\
    volume m = Ok (total_vol a) /\ volume m' = Ok (total_vol a - 2 * tetra_vol p q r) /\
    surface m = Ok (total_area a) /\ surface m' = Ok (total_area a).
Proof. exact flip_measures. Qed.
Print Assumptions C09_flip_reverses_orientation.
Example C09_case : exists m : Mesh R, reach m /\ shows m tetra_abs /\ nth_error (atris tetra_abs) (Z.to_nat 2) = Some ((1, 2, 3)%Z, true).
Proof. destruct tetra_exists as [m [R [S [I C]]]]. exists m. split; [exact R|]. split; [exact S|]. reflexivity. Qed.

(** C10. *)
Theorem C10_split_preserves_surface : forall (m : Mesh R) (a : AMesh R) (i iv x y z : Z), reach m -> shows m a -> (0 <= i)%Z ->
  nth_error (atris a) (Z.to_nat i) = Some ((x, y, z), true) -> (0 <= iv < nb_vertices m)%Z ->
  let p := pt a x O3 in let q := pt a y O3 in let r := pt a z O3 in let w := pt a iv O3 in
  exists m' a', split_triangle_with_vertex m i iv = Ok m' /\ reach m' /\ shows m' a' /\
    averts a' = averts a /\
    atris a' = upd (atris a) (Z.to_nat i) (fun t => (fst t, false)) ++ [((x, y, iv), true); ((y, z, iv), true); ((z, x, iv), true)] /\
    volume m = Ok (total_vol a) /\
    volume m' = Ok (total_vol a + det3 (sub3 q p) (sub3 r p) (sub3 w p) / 6) /\
    (in_plane_of p q r w -> volume m' = volume m) /\
    surface m = Ok (total_area a) /\
    (in_triangle p q r w -> surface m' = surface m) /\
    (exists s, surface m' = Ok s /\ total_area a <= s) /\
    (index_closed (live a') <-> index_closed (live a)).
Proof. exact split_measures. Qed.
Print Assumptions C10_split_preserves_surface.
(** C10: outer boundary. Three inner edges are added, each used once in both directions. *)
Theorem C10_split_boundary : forall (A : Type) (x y z v : A),
  Permutation (flat_map edges3 [(x, y, v); (y, z, v); (z, x, v)])
              (edges3 (x, y, z) ++ [(x, v); (v, x); (y, v); (v, y); (z, v); (v, z)]).
Proof. exact @split_edges. Qed.
Print Assumptions C10_split_boundary.
Example C10_case : exists m, reach m /\ shows m tetra_abs /\
  nth_error (atris tetra_abs) (Z.to_nat 1) = Some ((0, 1, 3)%Z, true) /\ (0 <= 2 < nb_vertices m)%Z.
Proof.
  destruct tetra_exists as [m [R [S _]]]. exists m. split; [exact R|]. split; [exact S|]. split; [reflexivity|].
  rewrite (proj1 S). cbn. split; discriminate || reflexivity.
Qed.

(** C12. The boundary of the two triangles of a quad is the quad's outline, plus the diagonal used both ways. *)
Theorem C12_quad_outline : forall (A : Type) (x y z w : A),
  Permutation (flat_map edges3 [(x, y, z); (z, w, x)]) ([(x, y); (y, z); (z, w); (w, x)] ++ [(z, x); (x, z)]).
Proof. exact @quad_edges. Qed.
Print Assumptions C12_quad_outline.
(** C12. add_quad adds these two triangles or aborts on an invalid id. *)
Theorem C12_add_quad : forall (T : Type) (N : Num T) (m : Mesh T) (a : AMesh T) (x y z w : Z), reach m -> shows m a ->
  if oks (len (averts a)) [x; y; z; w]
  then exists m', add_quad m x y z w = Ok m' /\ reach m' /\
         shows m' (mkA (averts a) (atris a ++ [((x, y, z), true); ((z, w, x), true)]) (acolor a))
  else add_quad m x y z w = Err FAssert.
Proof. exact @add_quad_shows. Qed.
Print Assumptions C12_add_quad.
(** C12. add_pentagon likewise. *)
Theorem C12_add_pentagon : forall (T : Type) (N : Num T) (m : Mesh T) (a : AMesh T) (x y z w v : Z), reach m -> shows m a ->
  if oks (len (averts a)) [x; y; z; w; v]
  then exists m', add_pentagon m x y z w v = Ok m' /\ reach m' /\
         shows m' (mkA (averts a) (atris a ++ [((x, y, z), true); ((z, w, v), true); ((x, z, v), true)]) (acolor a))
  else add_pentagon m x y z w v = Err FAssert.
Proof. exact @add_pentagon_shows. Qed.
Print Assumptions C12_add_pentagon.
(** C12. With bOptimSurface the split with the smaller area is taken. *)
Theorem C12_optim_picks_smaller_surface : forall (m : Mesh R) (a : AMesh R) (p q r s : pt3), reach m -> shows m a ->
  let n := nb_vertices m in
  exists m' ts, add_quad_points m p q r s true = Ok m' /\ reach m' /\
    shows m' (with_tris (with_verts a [p; q; r; s]) ts) /\
    (ts = [(n, n + 1, n + 2); (n + 2, n + 3, n)]%Z \/ ts = [(n + 1, n + 2, n + 3); (n + 3, n, n + 1)]%Z) /\
    surface m = Ok (total_area a) /\
    surface m' = Ok (total_area a + Rmin (area3 p q r + area3 r s p) (area3 q r s + area3 s p q)).
Proof. exact quad_optim. Qed.
Print Assumptions C12_optim_picks_smaller_surface.
Example C12_case : exists m : Mesh R, reach m /\ shows m tetra_abs /\ oks (len (averts tetra_abs)) [0; 1; 2; 3]%Z = true.
Proof. destruct tetra_exists as [m [R [S [I C]]]]. exists m. split; [exact R|]. split; [exact S|]. reflexivity. Qed.

(** C16. *)
Theorem C16_surface_is_sum_of_areas : forall (m : Mesh R) (a : AMesh R), reach m -> shows m a ->
  surface m = Ok (total_area a) /\ 0 <= total_area a /\ (live a = [] -> total_area a = 0) /\
  (forall f b, reach f -> shows f b -> exists m', add_mesh m f = Ok m' /\ surface m' = Ok (total_area a + total_area b) /\
      volume m' = Ok (total_vol a + total_vol b)) /\
  volume m = Ok (total_vol a).
Proof. exact surface_facts. Qed.
Print Assumptions C16_surface_is_sum_of_areas.
Theorem C16_unlinked_triangles_do_not_count : forall (m : Mesh R) (a : AMesh R) (i x y z : Z) (b : bool), reach m -> shows m a -> (0 <= i)%Z ->
  nth_error (atris a) (Z.to_nat i) = Some ((x, y, z), b) ->
  exists m', unlink_triangle m i = Ok m' /\
    surface m' = Ok (total_area a - if b then area3 (pt a x O3) (pt a y O3) (pt a z O3) else 0).
Proof. exact unlink_measures. Qed.
Print Assumptions C16_unlinked_triangles_do_not_count.
Example C16_case : exists m : Mesh R, reach m /\ shows m tetra_abs /\ length (faces tetra_abs) = 4%nat.
Proof. destruct tetra_exists as [m [R [S [I C]]]]. exists m. split; [exact R|]. split; [exact S|]. reflexivity. Qed.

(** C17. *)
Theorem C17_volume_translation_invariant : forall (m : Mesh R) (a : AMesh R) (v : pt3), reach m -> shows m a -> closed_surface (faces a) ->
  exists m' x, apply_transform m (translation v) = Ok m' /\ volume m = Ok x /\ volume m' = Ok x.
Proof. exact volume_translation_invariant. Qed.
Print Assumptions C17_volume_translation_invariant.
(** C17: closedness by vertex id implies closedness by position. *)
Theorem C17_index_closed_is_closed : forall a : AMesh R, index_closed (live a) -> closed_surface (faces a).
Proof. exact index_closed_surface. Qed.
Print Assumptions C17_index_closed_is_closed.
Example C17_case : exists m : Mesh R, reach m /\ shows m tetra_abs /\ closed_surface (faces tetra_abs) /\ total_vol tetra_abs = 1 / 6.
Proof. destruct tetra_exists as [m [R [S [_ C]]]]. exists m. split; [exact R|]. split; [exact S|]. split; [exact C|exact tetra_volume]. Qed.

(** C18. *)
Theorem C18_rotation_invariant : forall (m : Mesh R) (a : AMesh R) (angle : R) (u : pt3), reach m -> shows m a -> len3 u = 1 ->
  exists M Q m1 m2, mat_from_angle_axis angle u = Ok M /\ quat_from_angle_axis angle u = Ok Q /\
    apply_transform m (mat_apply M) = Ok m1 /\ apply_transform m (quat_apply Q) = Ok m2 /\
    volume m1 = volume m /\ surface m1 = surface m /\ volume m2 = volume m /\ surface m2 = surface m.
Proof. exact rotation_measures. Qed.
Print Assumptions C18_rotation_invariant.
Theorem C18_uniform_scale : forall (m : Mesh R) (a : AMesh R) (k : R), reach m -> shows m a ->
  exists m' v s, apply_transform m (scale k k k) = Ok m' /\ volume m = Ok v /\ surface m = Ok s /\
    volume m' = Ok (k ^ 3 * v) /\ surface m' = Ok (k ^ 2 * s).
Proof. exact scale_measures. Qed.
Print Assumptions C18_uniform_scale.
Theorem C18_scale_volume : forall (m : Mesh R) (a : AMesh R) (x y z : R), reach m -> shows m a ->
  exists m' v, apply_transform m (scale x y z) = Ok m' /\ volume m = Ok v /\ volume m' = Ok (x * y * z * v).
Proof. exact scale_volume. Qed.
Print Assumptions C18_scale_volume.
Theorem C18_mirror_negates_volume : forall (m : Mesh R) (a : AMesh R), reach m -> shows m a ->
  forall f, In f [scale (-1) 1 1; scale 1 (-1) 1; scale 1 1 (-1)] ->
  exists m' v s, apply_transform m f = Ok m' /\ volume m = Ok v /\ surface m = Ok s /\
    volume m' = Ok (- v) /\ surface m' = Ok s.
Proof. exact mirror_measures. Qed.
Print Assumptions C18_mirror_negates_volume.
Example C18_case : exists m : Mesh R, reach m /\ shows m tetra_abs /\ len3 (mkP 0 1 0) = 1.
Proof. destruct tetra_exists as [m [R [S [I C]]]]. exists m. split; [exact R|]. split; [exact S|]. unfold len3, dot3. cbn [px py pz]. replace (0 * 0 + 1 * 1 + 0 * 0) with 1 by ring. apply sqrt_1. Qed.

(** C20 is false: neighbours are never recorded, so is_closed is true exactly for meshes without a linked triangle ... *)
Theorem C20_is_closed_only_if_empty : forall (m : Mesh R) (a : AMesh R), reach m -> shows m a ->
  exists b, is_closed m = Ok b /\ (b = true <-> live a = []).
Proof. exact is_closed_exact. Qed.
Print Assumptions C20_is_closed_only_if_empty.
(** ... for instance it is false on a tetrahedron whose directed edges are all matched ... *)
Theorem C20_refuted : exists (m : Mesh R) (a : AMesh R), reach m /\ shows m a /\ live a <> [] /\ index_closed (live a) /\ is_closed m = Ok false.
Proof. exact is_closed_refuted. Qed.
Print Assumptions C20_refuted.
(** ... and is_clean likewise accepts only meshes without a linked triangle. *)
Theorem C20_is_clean_only_if_empty : forall (m : Mesh R) (a : AMesh R), reach m -> shows m a ->
  exists b, is_clean m = Ok b /\ (b = true <-> live a = []).
Proof. exact is_clean_exact. Qed.
Print Assumptions C20_is_clean_only_if_empty.
Example C20_case : exists m : Mesh R, reach m /\ shows m tetra_abs /\ live tetra_abs <> [].
Proof. destruct tetra_exists as [m [R [S [I C]]]]. exists m. split; [exact R|]. split; [exact S|]. discriminate. Qed.

(** C21. *)
Theorem C21_no_degenerated_exact : forall (m : Mesh R) (a : AMesh R), reach m -> shows m a ->
  exists b, has_no_degenerated_triangles m = Ok b /\
    (b = true <-> forall p q r, In (p, q, r) (faces a) -> area3 p q r <> 0).
Proof. exact no_degenerated_exact. Qed.
Print Assumptions C21_no_degenerated_exact.
Example C21_case : exists m : Mesh R, reach m /\ shows m tetra_abs /\ In (mkP 0 0 0, mkP 0 1 0, mkP 1 0 0) (faces tetra_abs).
Proof. destruct tetra_exists as [m [R [S [I C]]]]. exists m. split; [exact R|]. split; [exact S|]. left. reflexivity. Qed.
