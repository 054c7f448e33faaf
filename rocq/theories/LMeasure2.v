(** How the mesh operations change area, volume and closedness. *)
From Coq Require Import ZArith List Bool Reals Lra Lia Psatz Permutation.
From Verif Require Import Base Num MGeometry MKernel MMesh MMeshRun MMeasure MTransform SMesh SReach SGeom SMeasure
  LBase LMesh LReach LGeom LGeom2 LTransform LMeasure.
Import ListNotations.
Open Scope R_scope.

(** ** One step of the interface *)
Lemma shows_step o o' (m : Mesh R) a a' x : reach m -> shows m a -> op_shows o o' -> sstep a o' = Some (a', x) ->
  exists m', mstep m o = Ok (m', x) /\ reach m' /\ shows m' a'.
Proof.
  intros R S O E. pose proof (shows_run [o] [o'] m a R S ltac:(constructor; [exact O|constructor])) as H.
  cbn [srun] in H. rewrite E in H. destruct H as [m' [EM H]]. exists m'. split; [|exact H].
  cbn [mrun] in EM. destruct (mstep m o) as [[m1 x1]|f]; cbn in EM; [|discriminate]. congruence.
Qed.

Lemma unit_out_inv (r : res (Mesh R)) m' x : unit_out r = Ok (m', x) -> r = Ok m'.
Proof. unfold unit_out. destruct r; cbn; [|discriminate]. congruence. Qed.

Lemma add_quad_shows {T} {N : Num T} (m : Mesh T) a x y z w : reach m -> shows m a ->
  if oks (len (averts a)) [x; y; z; w]
  then exists m', add_quad m x y z w = Ok m' /\ reach m' /\
         shows m' (mkA (averts a) (atris a ++ [((x, y, z), true); ((z, w, x), true)]) (acolor a))
  else add_quad m x y z w = Err FAssert.
Proof.
  intros R S. pose proof (shows_run [OpAddQuad x y z w] [OpAddQuad x y z w] m a R S ltac:(repeat constructor)) as H.
  cbn [srun sstep] in H. destruct (oks _ _).
  - destruct H as [m' [E [R' S']]]. exists m'. split; [|split; assumption].
    cbn in E. unfold unit_out in E. destruct (add_quad m x y z w); cbn in E; [|discriminate]. congruence.
  - cbn in H. unfold unit_out in H. destruct (add_quad m x y z w); cbn in H; congruence.
Qed.
Lemma add_pentagon_shows {T} {N : Num T} (m : Mesh T) a x y z w v : reach m -> shows m a ->
  if oks (len (averts a)) [x; y; z; w; v]
  then exists m', add_pentagon m x y z w v = Ok m' /\ reach m' /\
         shows m' (mkA (averts a) (atris a ++ [((x, y, z), true); ((z, w, v), true); ((x, z, v), true)]) (acolor a))
  else add_pentagon m x y z w v = Err FAssert.
Proof.
  intros R S. pose proof (shows_run [OpAddPentagon x y z w v] [OpAddPentagon x y z w v] m a R S ltac:(repeat constructor)) as H.
  cbn [srun sstep] in H. destruct (oks _ _).
  - destruct H as [m' [E [R' S']]]. exists m'. split; [|split; assumption].
    cbn in E. unfold unit_out in E. destruct (add_pentagon m x y z w v); cbn in E; [|discriminate]. congruence.
  - cbn in H. unfold unit_out in H. destruct (add_pentagon m x y z w v); cbn in H; congruence.
Qed.

(** ** Killing a triangle *)
Lemma upd_split {A} (l : list A) n f x : nth_error l n = Some x -> l = firstn n l ++ x :: skipn (S n) l /\
  upd l n f = firstn n l ++ f x :: skipn (S n) l.
Proof.
  intros E. unfold upd. rewrite E. split; [|reflexivity]. clear f. revert n E.
  induction l as [|y l IH]; intros n E; [destruct n; discriminate|]. destruct n as [|n]; cbn in *; [congruence|]. f_equal. apply IH, E.
Qed.

Lemma live_kill (a : AMesh R) i t b : nth_error (atris a) (Z.to_nat i) = Some (t, b) ->
  Permutation (live a) ((if b then [t] else []) ++ live (kill_in a i)).
Proof.
  intros E. unfold kill_in, live, kill. cbn [atris].
  destruct (upd_split _ _ (fun t => (fst t, false)) _ E) as [E1 E2]. rewrite E2. rewrite E1 at 1.
  rewrite !filter_app, !map_app. cbn [filter snd fst]. destruct b; cbn [map fst app].
  - symmetry. apply Permutation_middle.
  - apply Permutation_refl.
Qed.

Lemma live_with (a : AMesh R) ts : live (with_tris a ts) = live a ++ ts.
Proof. unfold with_tris. rewrite live_app, live_new. destruct a; reflexivity. Qed.

Lemma corners_same a b t : averts a = averts b -> corners a t = corners b t.
Proof. intros E. unfold corners, pt. rewrite E. reflexivity. Qed.

Lemma sum_faces_perm (g : pt3 * pt3 * pt3 -> R) a l l' : Permutation l l' ->
  sumR (map g (map (corners a) l)) = sumR (map g (map (corners a) l')).
Proof. intros P. apply sumR_perm, Permutation_map, Permutation_map, P. Qed.

Lemma replaced (g : pt3 * pt3 * pt3 -> R) a i t b ts : nth_error (atris a) (Z.to_nat i) = Some (t, b) ->
  sumR (map g (faces (with_tris (kill_in a i) ts))) =
  sumR (map g (faces a)) - (if b then g (corners a t) else 0) + sumR (map g (map (corners a) ts)).
Proof.
  intros E. unfold faces. rewrite live_with.
  rewrite (sum_faces_perm g a _ _ (live_kill a i t b E)).
  rewrite !map_app, !sumR_app.
  change (corners (with_tris (kill_in a i) ts)) with (corners a).
  destruct b; unfold sumR; cbn [map fold_right]; ring.
Qed.

(** ** Flip *)
Lemma flip_facts p q r : tetra_vol p r q = - tetra_vol p q r /\ area3 p r q = area3 p q r /\
  orthogonal (mkTri p r q) = scal3 (-1) (orthogonal (mkTri p q r)).
Proof.
  split; [unfold tetra_vol, det3, dot3, cross3; cbn [px py pz]; field|]. split.
  - unfold area3. f_equal. replace (cross3 (sub3 r p) (sub3 q p)) with (scal3 (-1) (cross3 (sub3 q p) (sub3 r p))) by pring.
    rewrite len3_scal. replace (Rabs (-1)) with 1 by (rewrite Rabs_left; lra). ring.
  - change (orthogonal (mkTri p r q)) with (cross3 (sub3 p r) (sub3 p q)).
    change (orthogonal (mkTri p q r)) with (cross3 (sub3 p q) (sub3 p r)). pring.
Qed.

Lemma flip_measures (m : Mesh R) a i x y z : reach m -> shows m a -> (0 <= i)%Z ->
  nth_error (atris a) (Z.to_nat i) = Some ((x, y, z), true) ->
  let p := pt a x O3 in let q := pt a y O3 in let r := pt a z O3 in
  exists m', flip_triangle m i = Ok m' /\
    get_triangle m i = Ok (mkTri p q r) /\
    get_triangle m' (nb_triangles m) = Ok (mkTri p r q) /\
    orthogonal (mkTri p r q) = scal3 (-1) (orthogonal (mkTri p q r)) /\
    volume m = Ok (total_vol a) /\ volume m' = Ok (total_vol a - 2 * tetra_vol p q r) /\
    surface m = Ok (total_area a) /\ surface m' = Ok (total_area a).
Proof.
  intros R S Hi E p q r. destruct (flip_shows m a i x y z true R S Hi E) as [m' [EM [R' S']]].
  change (mkA _ _ _) with (with_tris (kill_in a i) [(x, z, y)]) in S'.
  destruct (flip_facts p q r) as [F1 [F2 F3]].
  exists m'. split; [exact EM|].
  pose proof (shows_unique m a (abs m) S (shows_abs m)) as EA.
  pose proof (shows_unique m' _ (abs m') S' (shows_abs m')) as EA'.
  split; [|split; [|split; [exact F3|split; [apply reach_volume; assumption|split; [|split; [apply reach_surface; assumption|]]]]]].
  - assert (exists t, vget (ktris (mkern m)) i = Ok t /\ abs_tri t = ((x, y, z), true)) as [t [Et At]].
    { rewrite EA in E. cbn [atris abs] in E. rewrite nth_error_map in E. unfold vget.
      replace (_ <? 0)%Z with false by lia. destruct (nth_error (ktris (mkern m)) (Z.to_nat i)); [|discriminate]. cbn in E. eexists. split; [reflexivity|]. congruence. }
    rewrite (get_triangle_corners m i t (reach_wf m R) Et). rewrite <- EA. injection At as -> -> -> _. reflexivity.
  - assert (exists t, vget (ktris (mkern m')) (nb_triangles m) = Ok t /\ abs_tri t = ((x, z, y), true)) as [t [Et At]].
    { assert (nb_triangles m = len (kill (atris a) i)) as EN.
      { rewrite <- abs_nbt, <- EA. unfold kill, len. destruct (upd_split _ _ (fun t => (fst t, false)) _ E) as [E1 ->]. rewrite E1 at 1. rewrite !app_length. reflexivity. }
      assert (nth_error (atris (abs m')) (Z.to_nat (nb_triangles m)) = Some ((x, z, y), true)) as EN'.
      { rewrite <- EA'. cbn [with_tris kill_in atris map]. rewrite EN. unfold len. rewrite Nat2Z.id, nth_error_app2, Nat.sub_diag by lia. reflexivity. }
      cbn [atris abs] in EN'. rewrite nth_error_map in EN'. unfold vget.
      replace (nb_triangles m <? 0)%Z with false by (unfold len in EN; lia).
      destruct (nth_error (ktris (mkern m')) (Z.to_nat (nb_triangles m))); [|discriminate]. cbn in EN'. eexists. split; [reflexivity|]. congruence. }
    rewrite (get_triangle_corners m' _ t (reach_wf m' R') Et). rewrite <- EA'. injection At as -> -> -> _. reflexivity.
  - rewrite (reach_volume _ _ R' S'). f_equal. unfold total_vol. rewrite (replaced vol_tri a i _ true _ E). unfold sumR at 2.
    cbn [map fold_right corners vol_tri]. fold p q r. rewrite F1. ring.
  - rewrite (reach_surface _ _ R' S'). f_equal. unfold total_area. rewrite (replaced area_tri a i _ true _ E). unfold sumR at 2.
    cbn [map fold_right corners area_tri]. fold p q r. rewrite F2. ring.
Qed.

(** ** Split at a vertex *)
Lemma split_vol p q r x : tetra_vol p q x + tetra_vol q r x + tetra_vol r p x =
  tetra_vol p q r + det3 (sub3 q p) (sub3 r p) (sub3 x p) / 6.
Proof. unfold tetra_vol, det3, dot3, cross3, sub3. cbn [px py pz]. field. Qed.

Lemma split_vol_plane p q r x : in_plane_of p q r x -> det3 (sub3 q p) (sub3 r p) (sub3 x p) = 0.
Proof.
  intros [a [b [c [E ->]]]]. assert (a = 1 - b - c) as -> by lra.
  unfold det3, dot3, cross3, sub3, add3, scal3. cbn [px py pz]. ring.
Qed.

Lemma split_area_ge p q r x : area3 p q r <= area3 p q x + area3 q r x + area3 r p x.
Proof.
  unfold area3.
  replace (cross3 (sub3 q p) (sub3 r p)) with
    (add3 (add3 (cross3 (sub3 q p) (sub3 x p)) (cross3 (sub3 r q) (sub3 x q))) (cross3 (sub3 p r) (sub3 x r))) by pring.
  pose proof (len3_triangle (add3 (cross3 (sub3 q p) (sub3 x p)) (cross3 (sub3 r q) (sub3 x q))) (cross3 (sub3 p r) (sub3 x r))).
  pose proof (len3_triangle (cross3 (sub3 q p) (sub3 x p)) (cross3 (sub3 r q) (sub3 x q))). lra.
Qed.

Lemma split_area p q r x : in_triangle p q r x -> area3 p q x + area3 q r x + area3 r p x = area3 p q r.
Proof.
  intros [a [b [c [Ha [Hb [Hc [E ->]]]]]]]. unfold area3.
  set (x := add3 _ _).
  assert (a = 1 - b - c) as EA by lra.
  replace (cross3 (sub3 q p) (sub3 x p)) with (scal3 c (cross3 (sub3 q p) (sub3 r p))) by (unfold x; rewrite EA; pring).
  replace (cross3 (sub3 r q) (sub3 x q)) with (scal3 a (cross3 (sub3 q p) (sub3 r p))) by (unfold x; rewrite EA; pring).
  replace (cross3 (sub3 p r) (sub3 x r)) with (scal3 b (cross3 (sub3 q p) (sub3 r p))) by (unfold x; rewrite EA; pring).
  rewrite !len3_scal, !Rabs_pos_eq by assumption. rewrite EA. field.
Qed.

(** The boundary of the three new triangles is the boundary of the old one plus three edges used both ways. *)
Lemma split_edges {A} (x y z v : A) :
  Permutation (flat_map edges3 [(x, y, v); (y, z, v); (z, x, v)])
              (edges3 (x, y, z) ++ [(x, v); (v, x); (y, v); (v, y); (z, v); (v, z)]).
Proof.
  cbn [flat_map edges3 app].
  apply Permutation_cons; [reflexivity|].
  (* bring the boundary edges to the front, then sort the rest *)
  apply (Permutation_trans (l' := (y, z) :: (z, x) :: [(y, v); (v, x); (z, v); (v, y); (x, v); (v, z)])).
  - apply (Permutation_trans (l' := (y, v) :: (y, z) :: (z, x) :: [(v, x); (z, v); (v, y); (x, v); (v, z)])).
    + apply perm_skip. apply (Permutation_trans (l' := (v, x) :: (y, z) :: (z, x) :: [(z, v); (v, y); (x, v); (v, z)])).
      * apply perm_skip, perm_skip.
        apply (Permutation_trans (l' := (z, v) :: (z, x) :: [(v, y); (x, v); (v, z)])); [apply perm_skip, perm_swap|apply perm_swap].
      * apply (Permutation_trans (l' := (y, z) :: (v, x) :: (z, x) :: [(z, v); (v, y); (x, v); (v, z)])); [apply perm_swap|apply perm_skip, perm_swap].
    + apply (Permutation_trans (l' := (y, z) :: (y, v) :: (z, x) :: [(v, x); (z, v); (v, y); (x, v); (v, z)])); [apply perm_swap|apply perm_skip, perm_swap].
  - do 2 apply perm_skip.
    apply (Permutation_trans (l' := (x, v) :: [(y, v); (v, x); (z, v); (v, y); (v, z)])).
    + symmetry. apply (Permutation_middle [(y, v); (v, x); (z, v); (v, y)] [(v, z)]).
    + apply perm_skip. apply (Permutation_trans (l' := (v, x) :: (y, v) :: [(z, v); (v, y); (v, z)])); [apply perm_swap|].
      do 2 apply perm_skip. apply perm_swap.
Qed.

Lemma index_closed_of_perm ts ts' : Permutation ts ts' -> index_closed ts -> index_closed ts'.
Proof.
  intros P H i j. specialize (H i j).
  assert (Permutation (flat_map (@edges3 Z) ts) (flat_map edges3 ts')) as Q by (apply Permutation_flat_map, P).
  rewrite !(proj1 (Permutation_count_occ zz_dec _ _) Q) in H. exact H.
Qed.

Lemma count_app_zz u v e : count_occ zz_dec (u ++ v) e = (count_occ zz_dec u e + count_occ zz_dec v e)%nat.
Proof. apply count_occ_app. Qed.

Lemma count_both (x v i j : Z) : count_occ zz_dec [(x, v); (v, x)] (i, j) = count_occ zz_dec [(x, v); (v, x)] (j, i).
Proof.
  rewrite <- (count_swap [(x, v); (v, x)] i j). cbn [map swap fst snd].
  apply (Permutation_count_occ zz_dec). apply perm_swap.
Qed.

(** replacing one triangle by triangles with the same boundary keeps the mesh closed *)
Lemma closed_replace (a : AMesh R) i t b ts extra : nth_error (atris a) (Z.to_nat i) = Some (t, b) -> b = true ->
  Permutation (flat_map edges3 ts) (edges3 t ++ extra) ->
  (forall i j, count_occ zz_dec extra (i, j) = count_occ zz_dec extra (j, i)) ->
  (index_closed (live (with_tris (kill_in a i) ts)) <-> index_closed (live a)).
Proof.
  intros E -> P X. rewrite live_with. pose proof (live_kill a i t true E) as LK. cbn [app] in LK.
  assert (forall e, count_occ zz_dec (flat_map edges3 (live (kill_in a i) ++ ts)) e =
    (count_occ zz_dec (flat_map edges3 (live a)) e + count_occ zz_dec extra e)%nat) as K.
  { intros e. rewrite flat_map_app, count_app_zz.
    rewrite (proj1 (Permutation_count_occ zz_dec _ _) P), count_app_zz.
    assert (Permutation (flat_map (@edges3 Z) (live a)) (flat_map edges3 (t :: live (kill_in a i)))) as Q by (apply Permutation_flat_map, LK).
    rewrite (proj1 (Permutation_count_occ zz_dec _ _) Q). cbn [flat_map]. rewrite count_app_zz.
    rewrite Nat.add_assoc. f_equal. apply Nat.add_comm. }
  unfold index_closed. split; intros H i' j'; specialize (H i' j').
  - rewrite !K, (X i' j') in H. lia.
  - rewrite !K, (X i' j'). lia.
Qed.

Lemma split_measures (m : Mesh R) a i iv x y z : reach m -> shows m a -> (0 <= i)%Z ->
  nth_error (atris a) (Z.to_nat i) = Some ((x, y, z), true) -> (0 <= iv < nb_vertices m)%Z ->
  let p := pt a x O3 in let q := pt a y O3 in let r := pt a z O3 in let w := pt a iv O3 in
  exists m' a', split_triangle_with_vertex m i iv = Ok m' /\ reach m' /\ shows m' a' /\
    averts a' = averts a /\
    atris a' = upd (atris a) (Z.to_nat i) (fun t => (fst t, false)) ++ [((x, y, iv), true); ((y, z, iv), true); ((z, x, iv), true)] /\
    volume m = Ok (total_vol a) /\
    volume m' = Ok (total_vol a + det3 (sub3 q p) (sub3 r p) (sub3 w p) / 6) /\
    (in_plane_of p q r w -> volume m' = volume m) /\
    surface m = Ok (total_area a) /\
    (in_triangle p q r w -> surface m' = surface m) /\
    (exists s, surface m' = Ok s /\ total_area a <= s) /\
    (index_closed (live a') <-> index_closed (live a)).
Proof.
  intros R S Hi E Hv p q r w. pose proof (shows_unique m a (abs m) S (shows_abs m)) as EA.
  assert (ok_idx i (len (atris a)) = true) as K1.
  { apply in_range_true. unfold len. split; [lia|]. assert (nth_error (atris a) (Z.to_nat i) <> None) as NN by congruence.
    apply nth_error_Some in NN. lia. }
  assert (ok_idx iv (len (averts a)) = true) as K2.
  { apply in_range_true. rewrite EA, abs_nbv. exact Hv. }
  destruct (shows_step (OpSplit i iv) (OpSplit i iv) m a (with_tris (kill_in a i) [(x, y, iv); (y, z, iv); (z, x, iv)]) OutUnit R S eq_refl) as [m' [EM [R' S']]].
  { cbn [sstep]. rewrite K1, K2, E. reflexivity. }
  cbn [mstep] in EM. apply unit_out_inv in EM.
  assert (volume m' = Ok (total_vol a + det3 (sub3 q p) (sub3 r p) (sub3 w p) / 6)) as HV.
  { rewrite (reach_volume _ _ R' S'). f_equal. unfold total_vol. rewrite (replaced vol_tri a i _ true _ E). unfold sumR at 2.
    cbn [map fold_right corners vol_tri]. fold p q r w. pose proof (split_vol p q r w). lra. }
  assert (surface m' = Ok (total_area a - area3 p q r + (area3 p q w + area3 q r w + area3 r p w))) as HS.
  { rewrite (reach_surface _ _ R' S'). f_equal. unfold total_area. rewrite (replaced area_tri a i _ true _ E). unfold sumR at 2.
    cbn [map fold_right corners area_tri]. fold p q r w. lra. }
  exists m', (with_tris (kill_in a i) [(x, y, iv); (y, z, iv); (z, x, iv)]).
  split; [exact EM|]. split; [exact R'|]. split; [exact S'|]. split; [reflexivity|]. split; [reflexivity|].
  split; [apply reach_volume; assumption|]. split; [exact HV|].
  split; [intros HP; rewrite HV, (split_vol_plane p q r w HP), (reach_volume m a R S); f_equal; field|].
  split; [apply reach_surface; assumption|].
  split; [intros HT; rewrite HS, (reach_surface m a R S), (split_area p q r w HT); f_equal; ring|].
  split; [eexists; split; [exact HS|]; pose proof (split_area_ge p q r w); lra|].
  apply (closed_replace a i (x, y, z) true _ _ E eq_refl (split_edges x y z iv)).
  intros i' j'. change [(x, iv); (iv, x); (y, iv); (iv, y); (z, iv); (iv, z)] with ([(x, iv); (iv, x)] ++ [(y, iv); (iv, y)] ++ [(z, iv); (iv, z)]).
  rewrite !count_app_zz, !(count_both _ iv i' j'). reflexivity.
Qed.

(** ** Quads *)
Lemma quad_edges {A} (x y z w : A) :
  Permutation (flat_map edges3 [(x, y, z); (z, w, x)]) ([(x, y); (y, z); (z, w); (w, x)] ++ [(z, x); (x, z)]).
Proof.
  cbn [flat_map edges3 app]. do 2 apply perm_skip.
  apply (Permutation_trans (l' := (z, w) :: (z, x) :: [(w, x); (x, z)])); [apply perm_swap|]. apply perm_skip. apply perm_swap.
Qed.

Lemma added (g : pt3 * pt3 * pt3 -> R) a vs ts : closed_indices a ->
  sumR (map g (faces (with_tris (with_verts a vs) ts))) = sumR (map g (faces a)) + sumR (map g (map (corners (with_verts a vs)) ts)).
Proof.
  intros C. unfold faces. rewrite live_with, !map_app, sumR_app. f_equal. f_equal. f_equal. change (live (with_verts a vs)) with (live a).
  apply map_ext_in. intros t Ht. apply (corners_ext a _ t C (live_live a t Ht)). cbn.
  rewrite firstn_app, Nat.sub_diag, firstn_all. apply app_nil_r.
Qed.

Lemma quad_optim (m : Mesh R) a p q r s : reach m -> shows m a ->
  let n := nb_vertices m in
  exists m' ts, add_quad_points m p q r s true = Ok m' /\ reach m' /\
    shows m' (with_tris (with_verts a [p; q; r; s]) ts) /\
    (ts = [(n, n + 1, n + 2); (n + 2, n + 3, n)]%Z \/ ts = [(n + 1, n + 2, n + 3); (n + 3, n, n + 1)]%Z) /\
    surface m = Ok (total_area a) /\
    surface m' = Ok (total_area a + Rmin (area3 p q r + area3 r s p) (area3 q r s + area3 s p q)).
Proof.
  intros R S n. pose proof (shows_unique m a (abs m) S (shows_abs m)) as EA.
  assert (closed_indices a) as CI by (apply (reach_closed m); assumption).
  set (vs := [p; q; r; s]).
  assert (len (averts a) = n) as EN by (rewrite EA; apply abs_nbv).
  assert (forall k, (k < 4)%nat -> pt (with_verts a vs) (n + Z.of_nat k) O3 = nth k vs O3) as PT.
  { intros k Hk. unfold pt, with_verts. cbn [averts]. rewrite <- EN. unfold len. rewrite app_nth2 by lia. f_equal. lia. }
  pose proof (PT 0%nat ltac:(lia)) as P0. pose proof (PT 1%nat ltac:(lia)) as P1. pose proof (PT 2%nat ltac:(lia)) as P2. pose proof (PT 3%nat ltac:(lia)) as P3.
  change (pt (with_verts a vs) (n + 0) O3 = p) in P0. change (pt (with_verts a vs) (n + 1) O3 = q) in P1.
  change (pt (with_verts a vs) (n + 2) O3 = r) in P2. change (pt (with_verts a vs) (n + 3) O3 = s) in P3.
  rewrite Z.add_0_r in P0. clear PT.
  assert (exists m4, reach m4 /\ shows m4 (with_verts a vs) /\ nb_vertices m4 = (n + 4)%Z /\
     add_quad_points m p q r s true =
      do a1 <- tri_surface (mkTri p q r);
      do a2 <- tri_surface (mkTri r s p);
      do a3 <- tri_surface (mkTri q r s);
      do a4 <- tri_surface (mkTri s p q);
      if nleb (nadd a1 a2) (nadd a3 a4) then add_quad m4 n (n + 1) (n + 2) (n + 3) else add_quad m4 (n + 1) (n + 2) (n + 3) n) as [m4 [R4 [S4 [N4 EQ]]]].
  { unfold add_quad_points. rewrite !add_vertex_spec. cbn [negb].
    exists (push_vert (push_vert (push_vert (push_vert m p) q) r) s).
    split; [|split; [|split]].
    - change (push_vert (push_vert (push_vert (push_vert m p) q) r) s) with (fst (add_vertex (fst (add_vertex (fst (add_vertex (fst (add_vertex m p)) q)) r)) s)).
      repeat apply reach_add_vertex. exact R.
    - assert (with_verts a vs = abs (push_vert (push_vert (push_vert (push_vert m p) q) r) s)) as ->; [|apply shows_abs].
      rewrite !abs_push_vert, !with_verts_app, <- EA. reflexivity.
    - rewrite !nbv_push_vert. unfold n. lia.
    - rewrite !nbv_push_vert. fold n. replace (n + 1 + 1)%Z with (n + 2)%Z by lia. replace (n + 2 + 1)%Z with (n + 3)%Z by lia. reflexivity. }
  rewrite EQ.
  change (mkTri p q r) with (tri3 (p, q, r)). change (mkTri r s p) with (tri3 (r, s, p)).
  change (mkTri q r s) with (tri3 (q, r, s)). change (mkTri s p q) with (tri3 (s, p, q)).
  rewrite !tri_surface_R. cbn [bind area_tri].
  assert (forall x y z w, (0 <= x < n + 4)%Z -> (0 <= y < n + 4)%Z -> (0 <= z < n + 4)%Z -> (0 <= w < n + 4)%Z ->
    exists m', add_quad m4 x y z w = Ok m' /\ reach m' /\ shows m' (with_tris (with_verts a vs) [(x, y, z); (z, w, x)]) /\
      surface m' = Ok (total_area a + (area_tri (corners (with_verts a vs) (x, y, z)) + area_tri (corners (with_verts a vs) (z, w, x))))) as Q.
  { intros x y z w Hx Hy Hz Hw.
    destruct (shows_step (OpAddQuad x y z w) (OpAddQuad x y z w) m4 (with_verts a vs) (with_tris (with_verts a vs) [(x, y, z); (z, w, x)]) OutUnit R4 S4 eq_refl) as [m' [EM [R' S']]].
    { cbn [sstep]. replace (oks _ _) with true; [reflexivity|]. symmetry.
      rewrite (shows_unique m4 _ _ S4 (shows_abs m4)). rewrite abs_nbv, N4. cbn [oks forallb].
      rewrite !(proj2 (in_range_true _ _)) by assumption. reflexivity. }
    cbn [mstep] in EM. apply unit_out_inv in EM. exists m'. split; [exact EM|]. split; [exact R'|]. split; [exact S'|].
    rewrite (reach_surface _ _ R' S'). f_equal. unfold total_area. rewrite (added area_tri a vs _ CI). unfold sumR at 2. cbn [map fold_right]. ring. }
  assert (0 <= n)%Z as Hn by (unfold n; apply vsize_nonneg).
  cbn [nleb nadd RNum].
  destruct (Rleb (area3 p q r + area3 r s p) (area3 q r s + area3 s p q)) eqn:B.
  - apply Rleb_le in B. destruct (Q n (n + 1) (n + 2) (n + 3))%Z as [m' [EM [R' [S' HS]]]]; try lia.
    exists m', [(n, n + 1, n + 2); (n + 2, n + 3, n)]%Z. split; [exact EM|]. split; [exact R'|]. split; [exact S'|]. split; [left; reflexivity|].
    split; [apply reach_surface; assumption|]. rewrite HS. rewrite Rmin_left by exact B. cbn [corners area_tri]. rewrite P0, P1, P2, P3. reflexivity.
  - apply Rleb_gt in B. destruct (Q (n + 1) (n + 2) (n + 3) n)%Z as [m' [EM [R' [S' HS]]]]; try lia.
    exists m', [(n + 1, n + 2, n + 3); (n + 3, n, n + 1)]%Z. split; [exact EM|]. split; [exact R'|]. split; [exact S'|]. split; [right; reflexivity|].
    split; [apply reach_surface; assumption|]. rewrite HS. rewrite Rmin_right by lra. cbn [corners area_tri]. rewrite P0, P1, P2, P3. reflexivity.
Qed.

(** ** Surface and volume of a mesh *)
Lemma surface_facts (m : Mesh R) a : reach m -> shows m a ->
  surface m = Ok (total_area a) /\ 0 <= total_area a /\ (live a = [] -> total_area a = 0) /\
  (forall f b, reach f -> shows f b -> exists m', add_mesh m f = Ok m' /\ surface m' = Ok (total_area a + total_area b) /\
      volume m' = Ok (total_vol a + total_vol b)) /\
  volume m = Ok (total_vol a).
Proof.
  intros R S. split; [apply reach_surface; assumption|]. split; [apply total_area_nonneg|].
  split; [unfold total_area, faces; intros ->; reflexivity|]. split; [|apply reach_volume; assumption].
  intros f b Rf Sf.
  destruct (shows_step (OpAddMesh f) (OpAddMesh b) m a _ OutUnit R S (conj Rf Sf) eq_refl) as [m' [EM [R' S']]].
  exists m'. split; [cbn [mstep] in EM; apply unit_out_inv in EM; exact EM|].
  destruct (add_mesh_area a b (reach_closed m a R S) (reach_closed f b Rf Sf)) as [HS HV].
  rewrite (reach_surface _ _ R' S'), (reach_volume _ _ R' S'). rewrite <- HS, <- HV. split; reflexivity.
Qed.

(** Unlinking removes exactly the contribution of the triangle. *)
Lemma unlink_measures (m : Mesh R) a i x y z b : reach m -> shows m a -> (0 <= i)%Z ->
  nth_error (atris a) (Z.to_nat i) = Some ((x, y, z), b) ->
  exists m', unlink_triangle m i = Ok m' /\
    surface m' = Ok (total_area a - if b then area3 (pt a x O3) (pt a y O3) (pt a z O3) else 0).
Proof.
  intros R S Hi E.
  destruct (shows_step (OpUnlink i) (OpUnlink i) m a (kill_in a i) OutUnit R S eq_refl) as [m' [EM [R' S']]].
  { cbn [sstep]. replace (ok_idx i (len (atris a))) with true; [reflexivity|]. symmetry.
    apply in_range_true. unfold len. split; [lia|]. assert (nth_error (atris a) (Z.to_nat i) <> None) as NN by congruence.
    apply nth_error_Some in NN. lia. }
  exists m'. cbn [mstep] in EM. apply unit_out_inv in EM. split; [exact EM|].
  rewrite (reach_surface _ _ R' S'). f_equal. unfold total_area.
  pose proof (replaced area_tri a i _ b [] E) as K. unfold with_tris in K. cbn [map] in K. rewrite app_nil_r in K.
  change (mkA (averts (kill_in a i)) (atris (kill_in a i)) (acolor (kill_in a i))) with (kill_in a i) in K. rewrite K.
  rewrite sumR_nil. cbn [corners area_tri]. ring.
Qed.

Lemma volume_translation_invariant (m : Mesh R) a v : reach m -> shows m a -> closed_surface (faces a) ->
  exists m' x, apply_transform m (translation v) = Ok m' /\ volume m = Ok x /\ volume m' = Ok x.
Proof.
  intros R S C. destruct (transform_shows m a (translation v) R S) as [m' [EM [R' S']]].
  exists m', (total_vol a). split; [exact EM|]. split; [apply reach_volume; assumption|].
  rewrite (reach_volume _ _ R' S'). f_equal. apply (volume_translation v a (reach_closed m a R S) C).
Qed.

Lemma transform_scales (m : Mesh R) a f kv ks : reach m -> shows m a ->
  (forall p q r, tetra_vol (f p) (f q) (f r) = kv * tetra_vol p q r) ->
  (forall p q r, area3 (f p) (f q) (f r) = ks * area3 p q r) ->
  exists m', apply_transform m f = Ok m' /\ volume m = Ok (total_vol a) /\ surface m = Ok (total_area a) /\
    volume m' = Ok (kv * total_vol a) /\ surface m' = Ok (ks * total_area a).
Proof.
  intros R S HV HS. destruct (transform_shows m a f R S) as [m' [EM [R' S']]].
  exists m'. split; [exact EM|]. split; [apply reach_volume; assumption|]. split; [apply reach_surface; assumption|].
  destruct (transform_measures f kv ks a (reach_closed m a R S) HV HS) as [E1 E2].
  rewrite (reach_volume _ _ R' S'), (reach_surface _ _ R' S'), E1, E2. split; reflexivity.
Qed.

Lemma rotation_measures (m : Mesh R) a angle u : reach m -> shows m a -> len3 u = 1 ->
  exists M Q m1 m2, mat_from_angle_axis angle u = Ok M /\ quat_from_angle_axis angle u = Ok Q /\
    apply_transform m (mat_apply M) = Ok m1 /\ apply_transform m (quat_apply Q) = Ok m2 /\
    volume m1 = volume m /\ surface m1 = surface m /\ volume m2 = volume m /\ surface m2 = surface m.
Proof.
  intros R S U. destruct (angle_axis_rigid angle u U) as [M [Q [EM [EQ [HM [HQ [I [K Fx]]]]]]]].
  assert (mat_apply M O3 = O3) as MO.
  { specialize (Fx 0). replace (scal3 0 u) with O3 in Fx by pring. exact Fx. }
  assert (forall p q r, tetra_vol (mat_apply M p) (mat_apply M q) (mat_apply M r) = 1 * tetra_vol p q r) as HV.
  { intros p q r. unfold tetra_vol. specialize (K O3 p q r). rewrite MO in K.
    assert (forall x, sub3 x O3 = x) as Z by (intros [x y z]; unfold sub3, O3; cbn [px py pz]; apply P_eq; ring).
    rewrite !Z in K. rewrite K. ring. }
  assert (forall p q r, area3 (mat_apply M p) (mat_apply M q) (mat_apply M r) = 1 * area3 p q r) as HS.
  { intros. rewrite (area_isometry (mat_apply M)) by exact I. ring. }
  destruct (transform_scales m a (mat_apply M) 1 1 R S HV HS) as [m1 [E1 [V0 [S0 [V1 S1]]]]].
  destruct (transform_scales m a (quat_apply Q) 1 1 R S) as [m2 [E2 [_ [_ [V2 S2]]]]].
  { intros. rewrite !HQ. apply HV. } { intros. rewrite !HQ. apply HS. }
  exists M, Q, m1, m2. rewrite V0, S0, V1, S1, V2, S2, !Rmult_1_l. auto 10.
Qed.

Lemma scale_measures (m : Mesh R) a k : reach m -> shows m a ->
  exists m' v s, apply_transform m (scale k k k) = Ok m' /\ volume m = Ok v /\ surface m = Ok s /\
    volume m' = Ok (k ^ 3 * v) /\ surface m' = Ok (k ^ 2 * s).
Proof.
  intros R S. destruct (transform_scales m a (scale k k k) (k ^ 3) (k ^ 2) R S) as [m' [E [V0 [S0 [V1 S1]]]]].
  - intros. unfold tetra_vol, det3, dot3, cross3, scale. cbn [px py pz nmul RNum]. field.
  - intros p q r. unfold area3.
    replace (cross3 (sub3 (scale k k k q) (scale k k k p)) (sub3 (scale k k k r) (scale k k k p))) with (scal3 (k ^ 2) (cross3 (sub3 q p) (sub3 r p))).
    + rewrite len3_scal, Rabs_pos_eq by (apply pow2_ge_0). field.
    + unfold scale. cbn [nmul RNum]. pring.
  - exists m', (total_vol a), (total_area a). auto.
Qed.

(** Any axis-aligned scaling multiplies the volume by the product of the factors (a mirror negates it). *)
Lemma scale_volume (m : Mesh R) a x y z : reach m -> shows m a ->
  exists m' v, apply_transform m (scale x y z) = Ok m' /\ volume m = Ok v /\ volume m' = Ok (x * y * z * v).
Proof.
  intros R S. destruct (transform_shows m a (scale x y z) R S) as [m' [EM [R' S']]]. exists m', (total_vol a).
  split; [exact EM|]. split; [apply reach_volume; assumption|]. rewrite (reach_volume _ _ R' S'). f_equal.
  unfold total_vol. rewrite (faces_transform a _ (reach_closed m a R S)), map_map. apply sumR_scale.
  intros [[p q] r] _. cbn [map3 vol_tri]. unfold tetra_vol, det3, dot3, cross3, scale. cbn [px py pz nmul RNum]. field.
Qed.

Lemma mirror_measures (m : Mesh R) a : reach m -> shows m a ->
  forall f, In f [scale (-1) 1 1; scale 1 (-1) 1; scale 1 1 (-1)] ->
  exists m' v s, apply_transform m f = Ok m' /\ volume m = Ok v /\ surface m = Ok s /\
    volume m' = Ok (- v) /\ surface m' = Ok s.
Proof.
  intros R S f Hf. destruct (transform_scales m a f (-1) 1 R S) as [m' [E [V0 [S0 [V1 S1]]]]].
  - intros p q r. destruct Hf as [<-|[<-|[<-|[]]]]; unfold tetra_vol, det3, dot3, cross3, scale; cbn [px py pz nmul RNum]; field.
  - intros p q r. rewrite area_isometry; [ring|]. intros u v.
    unfold dist3, len3. f_equal. destruct Hf as [<-|[<-|[<-|[]]]]; unfold dot3, sub3, scale; cbn [px py pz nmul RNum]; ring.
  - exists m', (total_vol a), (total_area a). rewrite V1, S1. repeat split; try assumption; f_equal; ring.
Qed.

(** ** Predicates *)
Lemma is_closed_exact (m : Mesh R) a : reach m -> shows m a ->
  exists b, is_closed m = Ok b /\ (b = true <-> live a = []).
Proof.
  intros R S. rewrite (shows_unique m a (abs m) S (shows_abs m)). rewrite is_closed_ok by (apply reach_wf; exact R).
  eexists. split; [reflexivity|]. destruct (live (abs m)); split; intros; congruence.
Qed.

Lemma no_degenerated_exact (m : Mesh R) a : reach m -> shows m a ->
  exists b, has_no_degenerated_triangles m = Ok b /\
    (b = true <-> forall p q r, In (p, q, r) (faces a) -> area3 p q r <> 0).
Proof.
  intros R S. rewrite (shows_unique m a (abs m) S (shows_abs m)). destruct (no_degenerated_ok m (reach_wf m R)) as [b [E H]].
  exists b. split; [exact E|]. rewrite H. split; intros K p q r I; specialize (K p q r I); [rewrite area3_zero|rewrite <- area3_zero]; exact K.
Qed.

Lemma is_clean_exact (m : Mesh R) a : reach m -> shows m a ->
  exists b, is_clean m = Ok b /\ (b = true <-> live a = []).
Proof.
  intros R S. destruct (no_degenerated_exact m a R S) as [b1 [E1 H1]]. destruct (is_closed_exact m a R S) as [b2 [E2 H2]].
  unfold is_clean. rewrite E1. cbn [bind]. destruct b1; cbn [negb].
  - unfold is_oriented_outside. rewrite (reach_volume m a R S). cbn [bind nleb nofZ RNum].
    destruct (Rleb 0 (total_vol a)) eqn:B; cbn [negb].
    + rewrite E2. cbn [bind]. destruct b2; cbn [negb]; eexists; (split; [reflexivity|]); rewrite <- H2; tauto.
    + eexists. split; [reflexivity|]. split; [discriminate|]. intros E. exfalso. apply Rleb_gt in B.
      unfold total_vol, faces in B. rewrite E in B. cbn in B. lra.
  - eexists. split; [reflexivity|]. split; [discriminate|]. intros E. exfalso.
    assert (false = true) as F; [|discriminate]. apply H1. unfold faces. rewrite E. intros p q r [].
Qed.
