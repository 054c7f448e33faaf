(** SmoothMesh as a container, its conversion to a mesh, and SmoothMeshFactory. *)
From Coq Require Import ZArith List Bool Reals Lra Lia Psatz.
From Verif Require Import Base Num MGeometry MKernel MMesh MMeshRun MMeasure MUtil MMeshFactory MBezier SMesh SReach SGeom SMeasure SMeshFac SNurbs SBezier
  LBase LReach LMeasure LMeasure2 LMeshFac LMeshFac2 LMeshFac3 LMeshFac4 LBezier LBezier2 LBezier3.
Import ListNotations.
Open Scope Z_scope.

Section Gen.
Context {T : Type} {N : Num T}.
Implicit Types sm : SmoothMesh T.
Lemma firstn_snoc {A} (l : list A) i x : vget l i = Ok x -> firstn (Z.to_nat (i + 1)) l = firstn (Z.to_nat i) l ++ [x].
Proof.
  unfold vget. destruct (Z.ltb_spec i 0) as [|H]; [discriminate|]. destruct (nth_error l (Z.to_nat i)) as [y|] eqn:E; [|discriminate]. intros [= ->].
  replace (Z.to_nat (i + 1)) with (S (Z.to_nat i)) by lia. revert E. generalize (Z.to_nat i). clear. intros n. revert l. induction n as [|n IH]; intros [|y l] E; cbn in E; try discriminate; [injection E as ->; reflexivity|].
  cbn [firstn]. cbn [app]. f_equal. apply IH. exact E.
Qed.
Lemma sm_add_mesh_ok sm src : sm_add_mesh sm src = Ok (sm ++ src).
Proof.
  unfold sm_add_mesh, sm_nb_triangles, sm_triangle.
  match goal with |- for_ 0 ?k ?bd sm = _ => destruct (for_inv (fun i (s : SmoothMesh T) => s = sm ++ firstn (Z.to_nat i) src) 0 k bd sm) as [s' [E H]] end.
  - unfold vsize. lia.
  - rewrite app_nil_r. reflexivity.
  - intros i s Hi ->. destruct (vget_in_range src i Hi) as [q Q]. rewrite Q. cbn [bind]. eexists. split; [reflexivity|]. unfold vpush. rewrite (firstn_snoc _ _ _ Q), app_assoc. reflexivity.
  - rewrite E, H. f_equal. f_equal. unfold vsize. rewrite Nat2Z.id. apply firstn_all.
Qed.
Lemma sm_assign_ok sm src : sm_assign sm src = Ok src. Proof. unfold sm_assign. rewrite sm_add_mesh_ok. reflexivity. Qed.
Lemma sm_copy_ok (src : SmoothMesh T) : sm_copy src = Ok src. Proof. apply sm_assign_ok. Qed.
Lemma sm_assign_self_ok fuel sm : (0 < fuel)%nat -> sm_assign_self fuel sm = Ok [].
Proof. intros F. destruct fuel; [lia|]. reflexivity. Qed.
Lemma sm_add_self_diverges fuel sm : sm <> [] -> sm_add_self fuel sm = Err FDiverge.
Proof.
  intros NE. unfold sm_add_self. assert (forall fuel i (s : SmoothMesh T), 0 <= i < vsize s -> while_ fuel (fun s : Z * SmoothMesh T => Ok (fst s <? sm_nb_triangles (snd s)))
            (fun s => do q <- sm_triangle (snd s) (fst s); Ok (fst s + 1, vpush (snd s) q)) (i, s) = Err FDiverge) as K.
  { clear. induction fuel as [|f IH]; intros i s Hi; [reflexivity|]. cbn [while_ bind fst snd]. unfold sm_nb_triangles. rewrite (proj2 (Z.ltb_lt _ _)) by lia.
    unfold sm_triangle. destruct (vget_in_range s i Hi) as [q ->]. cbn [bind]. apply IH. unfold vsize, vpush in *. rewrite app_length. cbn [length]. lia. }
  rewrite K; [reflexivity|]. destruct sm; [contradiction|]. unfold vsize. cbn [length]. lia.
Qed.
Lemma sm_add_self_empty fuel : (0 < fuel)%nat -> sm_add_self fuel ([] : SmoothMesh T) = Ok [].
Proof. intros F. destruct fuel; [lia|]. reflexivity. Qed.
Lemma list_set_mid {A} (u v : list A) x y : list_set (u ++ x :: v) (length u) y = u ++ y :: v.
Proof. induction u as [|a u IH]; [reflexivity|]. cbn. rewrite IH. reflexivity. Qed.
Lemma sm_transform_ok sm f : sm_apply_transform sm f = Ok (map (fun q => qbt_apply_transform q f) sm).
Proof.
  unfold sm_apply_transform, sm_nb_triangles. set (g := fun q => qbt_apply_transform q f).
  match goal with |- for_ 0 ?k ?bd sm = _ => destruct (for_inv (fun i (s : SmoothMesh T) => s = map g (firstn (Z.to_nat i) sm) ++ skipn (Z.to_nat i) sm) 0 k bd sm) as [s' [E H]] end.
  - unfold vsize. lia.
  - reflexivity.
  - intros i s Hi ->. destruct (vget_in_range sm i Hi) as [q Q]. rewrite (firstn_snoc _ _ _ Q). 
    assert (skipn (Z.to_nat i) sm = q :: skipn (Z.to_nat (i + 1)) sm) as ES.
    { revert Q. unfold vget. destruct (Z.ltb_spec i 0); [discriminate|]. destruct (nth_error sm (Z.to_nat i)) as [y|] eqn:En; [|discriminate]. intros [= ->].
      replace (Z.to_nat (i + 1)) with (S (Z.to_nat i)) by lia. revert En. generalize (Z.to_nat i). clear. intros n. revert sm. induction n as [|n IH]; intros [|y l] E; cbn in E; try discriminate; [injection E as ->; reflexivity|]. cbn [skipn]. rewrite (IH l E). reflexivity. }
    rewrite ES. assert (length (map g (firstn (Z.to_nat i) sm)) = Z.to_nat i) as EL by (rewrite map_length, firstn_length; unfold vsize in Hi; lia).
    assert (vget (map g (firstn (Z.to_nat i) sm) ++ q :: skipn (Z.to_nat (i + 1)) sm) i = Ok q) as ->.
    { unfold vget. destruct (Z.ltb_spec i 0); [lia|]. rewrite nth_error_app2 by lia. rewrite EL, Nat.sub_diag. reflexivity. }
    cbn [bind]. unfold vset. replace ((i <? 0) || (vsize _ <=? i)) with false.
    2:{ symmetry. apply orb_false_intro; [apply Z.ltb_ge; lia|]. apply Z.leb_gt. unfold vsize. rewrite app_length, EL. cbn [length]. lia. }
    eexists. split; [reflexivity|]. rewrite <- EL at 2. rewrite list_set_mid, map_app, <- app_assoc. reflexivity.
  - rewrite E, H. f_equal. unfold vsize. rewrite Nat2Z.id, firstn_all, skipn_all, app_nil_r. reflexivity.
Qed.
Lemma sm_to_mesh_step sm q (m : Mesh T) n : sm_add_to_mesh (sm ++ [q]) m n = do m <- sm_add_to_mesh sm m n; qbt_add_to_mesh q m n.
Proof.
  unfold sm_add_to_mesh. assert (vsize (sm ++ [q]) = vsize sm + 1) as -> by (unfold vsize; rewrite app_length; cbn [length]; lia).
  rewrite for_last by (unfold vsize; lia).
  rewrite (for_ext 0 (vsize sm) _ (fun i m => do q <- vget sm i; qbt_add_to_mesh q m n)).
  - destruct (for_ 0 (vsize sm) _ m); cbn [bind]; [|reflexivity]. unfold vget. destruct (Z.ltb_spec (vsize sm) 0) as [H|_]; [unfold vsize in H; lia|].
    unfold vsize. rewrite Nat2Z.id, nth_error_app2, Nat.sub_diag by lia. reflexivity.
  - intros i s Hi. unfold vget. destruct (Z.ltb_spec i 0) as [H|_]; [lia|]. rewrite nth_error_app1 by (unfold vsize in Hi; lia). reflexivity.
Qed.
End Gen.

Open Scope R_scope.
(** Tessellation of a whole smooth mesh. *)
Lemma to_mesh_counts (sm : SmoothMesh R) n : (1 <= n)%Z -> Forall positive_weights sm -> forall (m : Mesh R) a, reach m -> shows m a ->
  exists m' a' ts, sm_add_to_mesh sm m n = Ok m' /\ reach m' /\ shows m' a' /\
    a' = with_tris (with_verts a (flat_map (fun q => grid n (patch_at q n)) sm)) ts /\ len ts = (len sm * patch_count n)%Z.
Proof.
  intros Hn. induction sm as [|q sm IH] using rev_ind; intros W m a R S.
  - exists m, a, []. repeat split; try assumption || apply S. cbn [flat_map]. rewrite wv_nil, wt_nil. reflexivity.
  - apply Forall_app in W. destruct W as [W Wq]. inversion Wq as [|? ? Pq _]; subst. destruct (IH W m a R S) as (m1 & a1 & ts & E1 & R1 & S1 & -> & L1).
    destruct (patch_appended q n m1 _ Hn Pq R1 S1) as [m2 [E2 [R2 S2]]].
    exists m2, (with_tris (with_verts a (flat_map (fun q => grid n (patch_at q n)) (sm ++ [q]))) (ts ++ patch_tris n (nb_vertices m1))), (ts ++ patch_tris n (nb_vertices m1)).
    rewrite sm_to_mesh_step, E1. cbn [bind]. split; [exact E2|]. split; [exact R2|].
    split; [|split; [reflexivity|rewrite !len_app, L1, patch_tris_len by exact Hn; cbn; unfold len; cbn; lia]].
    rewrite flat_map_app. cbn [flat_map]. rewrite app_nil_r, <- wv_app, <- wt_app. exact S2.
Qed.

Lemma cell_vol P1 P2 P3 s1 u1 s2 u2 s3 u3 : tetra_vol (bary_map P1 P2 P3 s1 u1 (1 - s1 - u1)) (bary_map P1 P2 P3 s2 u2 (1 - s2 - u2)) (bary_map P1 P2 P3 s3 u3 (1 - s3 - u3)) =
  ((s2 - s1) * (u3 - u1) - (s3 - s1) * (u2 - u1)) * tetra_vol P1 P2 P3.
Proof. destruct P1, P2, P3. unfold tetra_vol, det3, dot3, cross3, bary_map. cbn. field. Qed.

Definition flat (f : pt3 * pt3 * pt3) : QBT R := let '(P1, P2, P3) := f in qbt_set_points qbt_new P1 P2 P3.
Lemma flat_is f : flat_patch (flat f) f.
Proof. destruct f as [[P1 P2] P3]. intros s u v H. apply eval_flat_new. exact H. Qed.
Lemma flat_measures f n (m : Mesh R) a : (1 <= n)%Z -> reach m -> shows m a ->
  exists m' a', qbt_add_to_mesh (flat f) m n = Ok m' /\ reach m' /\ shows m' a' /\
    total_area a' = total_area a + coverage n * area_tri f /\ total_vol a' = total_vol a - coverage n * vol_tri f.
Proof.
  intros Hn R S. destruct f as [[P1 P2] P3]. cbn [flat]. set (q := qbt_set_points qbt_new P1 P2 P3). destruct (patch_appended q n m a Hn (flat_positive P1 P2 P3) R S) as [m' [E [R' S']]].
  exists m', (with_tris (with_verts a (grid n (patch_at q n))) (patch_tris n (nb_vertices m))). do 3 (split; [assumption|]).
  assert (nb_vertices m = len (averts a)) as Eb by (destruct S as [Q _]; exact Q).
  assert (IZR n <> 0) as NZ by (apply not_0_IZR; lia).
  assert (forall t, In t (patch_tris n (nb_vertices m)) -> exists s1 u1 s2 u2 s3 u3, corners (with_verts a (grid n (patch_at q n))) t =
    (bary_map P1 P2 P3 s1 u1 (1 - s1 - u1), bary_map P1 P2 P3 s2 u2 (1 - s2 - u2), bary_map P1 P2 P3 s3 u3 (1 - s3 - u3)) /\ (s2 - s1) * (u3 - u1) - (s3 - s1) * (u2 - u1) = - / (IZR n * IZR n)) as K.
  { rewrite Eb. intros t Ht. destruct (patch_tris_cells n _ t Ht) as (i1 & j1 & i2 & j2 & i3 & j3 & G1 & G2 & G3 & -> & D & _).
    exists (gpos n i1), (gpos n j1), (gpos n i2), (gpos n j2), (gpos n i3), (gpos n j3). split.
    - cbn [corners]. assert (forall i j, on_grid n i j -> pt (with_verts a (grid n (patch_at q n))) (len (averts a) + rank n i j) O3 = patch_at q n i j) as K.
      { intros i j G. pose proof (corners_new a n (patch_at q n) _ i j [] G eq_refl) as Q. rewrite wt_nil in Q. exact Q. }
      rewrite !K by assumption. subst q. rewrite !flat_at by exact Hn. reflexivity.
    - unfold gpos.
      replace ((IZR i2 / IZR n - IZR i1 / IZR n) * (IZR j3 / IZR n - IZR j1 / IZR n) - (IZR i3 / IZR n - IZR i1 / IZR n) * (IZR j2 / IZR n - IZR j1 / IZR n))
        with (IZR ((i2 - i1) * (j3 - j1) - (i3 - i1) * (j2 - j1)) * / (IZR n * IZR n)) by (rewrite minus_IZR, !mult_IZR, !minus_IZR; field; exact NZ).
      rewrite D. ring. }
  assert (0 < / (IZR n * IZR n)) as IP by (apply Rinv_0_lt_compat; nra).
  unfold total_area, total_vol. rewrite !added by (apply (reach_closed m); assumption). rewrite !map_map. unfold coverage. split.
  - f_equal. rewrite (sumR_const _ _ (/ (IZR n * IZR n) * area3 P1 P2 P3)).
    + rewrite patch_tris_len by exact Hn. unfold area_tri, Rdiv. ring.
    + intros t Ht. destruct (K t Ht) as (s1 & u1 & s2 & u2 & s3 & u3 & -> & D). unfold area_tri. rewrite cell_area, D. f_equal. rewrite Rabs_Ropp. apply Rabs_pos_eq. lra.
  - unfold Rminus. f_equal. rewrite (sumR_const _ _ (- / (IZR n * IZR n) * tetra_vol P1 P2 P3)).
    + rewrite patch_tris_len by exact Hn. unfold vol_tri, Rdiv. ring.
    + intros t Ht. destruct (K t Ht) as (s1 & u1 & s2 & u2 & s3 & u3 & -> & D). unfold vol_tri. rewrite cell_vol, D. reflexivity.
Qed.
Lemma flats_measures fs n : (1 <= n)%Z -> forall (m : Mesh R) a, reach m -> shows m a ->
  exists m' a', sm_add_to_mesh (map flat fs) m n = Ok m' /\ reach m' /\ shows m' a' /\
    total_area a' = total_area a + coverage n * sumR (map area_tri fs) /\ total_vol a' = total_vol a - coverage n * sumR (map vol_tri fs).
Proof.
  intros Hn. induction fs as [|f fs IH] using rev_ind; intros m a R S.
  - exists m, a. do 3 (split; [reflexivity || assumption|]). cbn. split; ring.
  - destruct (IH m a R S) as (m1 & a1 & E1 & R1 & S1 & A1 & V1). destruct (flat_measures f n m1 a1 Hn R1 S1) as (m2 & a2 & E2 & R2 & S2 & A2 & V2).
    exists m2, a2. rewrite map_app. cbn [map]. rewrite sm_to_mesh_step, E1. cbn [bind]. do 3 (split; [assumption|]).
    rewrite A2, V2, A1, V1, !map_app, !sumR_app. cbn. split; ring.
Qed.

(** SmoothMeshFactory *)
Lemma flat_patches_map fs gs : Forall2 rotated gs fs -> flat_patches (map flat fs) gs.
Proof. intros H. induction H as [|g f gs fs H _ IH]; cbn; constructor; [exists f; split; [exact H|apply flat_is]|exact IH]. Qed.
Lemma rot0 {A} (f : A * A * A) : rotated f f. Proof. destruct f as [[x y] z]. left. reflexivity. Qed.
Lemma rot2 {A} (x y z : A) : rotated (x, y, z) (z, x, y). Proof. right. right. reflexivity. Qed.
Lemma rot_measures fs gs : Forall2 rotated gs fs -> sumR (map area_tri fs) = sumR (map area_tri gs) /\ sumR (map vol_tri fs) = sumR (map vol_tri gs).
Proof.
  induction 1 as [|g f gs fs H _ [IA IV]]; [split; reflexivity|]. cbn [map sumR fold_right]. change (fold_right Rplus 0) with sumR. rewrite IA, IV.
  destruct g as [[x y] z]. assert (area_tri f = area_tri (x, y, z) /\ vol_tri f = vol_tri (x, y, z)) as [EA EV]; [|rewrite EA, EV; split; reflexivity].
  assert (forall p q r : pt3, area3 q r p = area3 p q r) as A.
  { intros p q r. destruct p, q, r. unfold area3. do 2 f_equal. unfold cross3, sub3. cbn. f_equal; ring. }
  assert (forall p q r : pt3, tetra_vol q r p = tetra_vol p q r) as V.
  { intros p q r. destruct p, q, r. unfold tetra_vol, det3, dot3, cross3. cbn. field. }
  destruct H as [-> | [-> | -> ] ]; unfold area_tri, vol_tri; [split; reflexivity|split; [apply A|apply V]|split; symmetry; [apply A|apply V] ].
Qed.
