(** tessellate. *)
From Coq Require Import ZArith List Bool Lia Reals Lra.
From Verif Require Import Base Num MGeometry MKernel MMesh MMeshRun MMeasure MUtil SMesh SReach SGeom SMeasure SUtil LBase LMesh LReach LGeom LMeasure LMeasure2 LGrid LUtil.
Import ListNotations.
Open Scope Z_scope.

(** A mesh made of separate triangles. *)
Definition soup (m : Mesh R) (fs : list (pt3 * pt3 * pt3)) : Prop :=
  reach m /\ faces (abs m) = fs /\ nb_vertices m = 3 * vsize fs /\ nb_triangles m = vsize fs /\
  averts (abs m) = flat_map (fun f => let '(p, q, r) := f in [p; q; r]) fs.

Lemma soup_add m fs p q r : soup m fs ->
  exists m' i, add_triangle_points m p q r = Ok (m', i) /\ soup m' (fs ++ [(p, q, r)]).
Proof.
  intros [R [F [NV [NT AV]]]]. rewrite add_triangle_points_spec. eexists. eexists. split; [reflexivity|].
  set (n := nb_vertices m) in *.
  assert (reach (push_tri (push_vert (push_vert (push_vert m p) q) r) n (n + 1) (n + 2))) as R'.
  { eapply (R_step m (OpAddTrianglePts p q r) _ (OutId (nb_triangles m)) R); [intros f [H|H]; discriminate|].
    cbn [mstep]. rewrite add_triangle_points_spec. reflexivity. }
  split; [exact R'|]. split; [|split; [|split]].
  - rewrite abs_push_tri, !abs_push_vert. unfold faces. rewrite live_with.
    change (live (with_verts _ _)) with (live (abs m)). rewrite map_app, <- F. unfold faces. f_equal.
    + apply map_ext_in. intros t Ht. apply corners_ext; [exact (reach_closed m _ R (shows_abs m))| |].
      * unfold live in Ht. apply in_map_iff in Ht. destruct Ht as [[t' b] [<- Ht]]. apply filter_In in Ht. exists b. apply Ht.
      * cbn. rewrite <- !app_assoc. rewrite firstn_app, firstn_all, Nat.sub_diag. cbn. apply app_nil_r.
    + cbn [map]. unfold corners, pt. cbn [averts with_verts with_tris abs].
      rewrite <- !app_assoc. cbn [app].
      assert (forall k x, 0 <= k -> nth (Z.to_nat k) [p; q; r] O3 = x -> nth (Z.to_nat (n + k)) (kverts (mkern m) ++ [p; q; r]) O3 = x) as K.
      { intros k x Hk Hx. rewrite app_nth2 by (unfold n, nb_vertices, k_nbv, vsize; lia). rewrite <- Hx. f_equal. unfold n, nb_vertices, k_nbv, vsize. lia. }
      rewrite (K 1 q ltac:(lia) eq_refl), (K 2 r ltac:(lia) eq_refl).
      replace n with (n + 0) at 1 by lia. rewrite (K 0 p ltac:(lia) eq_refl). reflexivity.
  - rewrite nbv_push_tri, !nbv_push_vert, vsize_app. fold n. change (vsize [(p, q, r)]) with 1. lia.
  - rewrite nbt_push_tri, !nbt_push_vert, vsize_app. change (vsize [(p, q, r)]) with 1. lia.
  - rewrite abs_push_tri, !abs_push_vert, flat_map_app, <- AV. cbn [with_tris with_verts averts flat_map app]. rewrite <- !app_assoc. reflexivity.
Qed.

Section Tess.
Variables (a b c : pt3) (n : Z).
Hypothesis Hn : 1 <= n.

Definition ip (uv : Z * Z) : pt3 :=
  add3 (add3 a (scal3 (IZR (fst uv) / IZR n) (sub3 b a))) (scal3 (IZR (snd uv) / IZR n) (sub3 c a)).

Lemma n_nz : (IZR n <> 0)%R.
Proof. apply not_0_IZR. lia. Qed.

Lemma interpolate_ok u v : interpolate a b c u v n = Ok (ip (u, v)).
Proof.
  unfold interpolate. change (nofZ u) with (IZR u). change (nofZ v) with (IZR v). change (nofZ n) with (IZR n).
  rewrite !ndiv_R by exact n_nz. reflexivity.
Qed.

Definition uvtri : Type := (Z * Z) * (Z * Z) * (Z * Z).
Definition inner (s j : Z) : list uvtri :=
  [((s - j, j), (s - j, j + 1), (s - j - 1, j + 1)); ((s - j - 1, j + 1), (s - j, j + 1), (s - j - 1, j + 2))].
Definition stripe (s : Z) : list uvtri := ((s, 0), (s + 1, 0), (s, 1)) :: flat_map (inner s) (zrange 0 s).
Definition grid (k : Z) : list uvtri := flat_map stripe (zrange 0 k).
Definition ip3 (t : uvtri) : pt3 * pt3 * pt3 := let '(p, q, r) := t in (ip p, ip q, ip r).

Lemma tessellate_triangle_ok m fs : soup m fs ->
  exists m', tessellate_triangle a b c n m = Ok m' /\ soup m' (fs ++ map ip3 (grid n)).
Proof.
  intros S. unfold tessellate_triangle.
  apply (for_inv (fun i m' => soup m' (fs ++ map ip3 (grid i)))); [lia|cbn; rewrite app_nil_r; exact S|].
  intros s m1 Hs S1. rewrite !interpolate_ok. cbn [bind].
  destruct (soup_add m1 _ (ip (s, 0)) (ip (s + 1, 0)) (ip (s, 1)) S1) as [m2 [i2 [E2 S2]]]. rewrite E2. cbn [bind fst].
  edestruct (for_inv (fun j m' => soup m' ((fs ++ map ip3 (grid s)) ++ map ip3 (((s, 0), (s + 1, 0), (s, 1)) :: flat_map (inner s) (zrange 0 j)))))
    as [m3 [E3 S3]]; [| | |exists m3; split; [exact E3|]].
  - lia.
  - exact S2.
  - intros j m3 Hj S3. cbv beta. rewrite !interpolate_ok. cbn [bind].
    destruct (soup_add m3 _ (ip (s - j, j)) (ip (s - j, j + 1)) (ip (s - j - 1, j + 1)) S3) as [m4 [i4 [E4 S4]]]. rewrite E4. cbn [bind fst].
    destruct (soup_add m4 _ (ip (s - j - 1, j + 1)) (ip (s - j, j + 1)) (ip (s - j - 1, j + 2)) S4) as [m5 [i5 [E5 S5]]]. rewrite E5. cbn [bind fst].
    exists m5. split; [reflexivity|]. rewrite zrange_last, flat_map_app by lia.
    cbn [map ip3 flat_map] in S5 |- *. rewrite map_app. cbn [map inner app ip3]. rewrite <- !app_assoc in S5. rewrite <- !app_assoc. cbn [app] in S5 |- *. rewrite <- ?app_assoc in S5. exact S5.
  - unfold grid in *. rewrite zrange_last, flat_map_app by lia. rewrite map_app, app_assoc. cbn [flat_map]. rewrite app_nil_r. exact S3.
Qed.

Lemma grid_size k : 0 <= k -> vsize (grid k) = k * k.
Proof.
  intros H. pattern k. apply natlike_ind; [reflexivity| |exact H]. clear. intros k Hk IH. unfold grid in *. unfold Z.succ.
  rewrite zrange_last, flat_map_app, vsize_app, IH by lia. cbn [flat_map]. rewrite app_nil_r. unfold stripe.
  rewrite vsize_cons, (vsize_flat_map0 _ 2) by (try reflexivity; lia). ring.
Qed.

Definition good_uv (t : uvtri) : Prop :=
  let '((u1, v1), (u2, v2), (u3, v3)) := t in
  (0 <= u1 /\ 0 <= v1 /\ u1 + v1 <= n) /\ (0 <= u2 /\ 0 <= v2 /\ u2 + v2 <= n) /\ (0 <= u3 /\ 0 <= v3 /\ u3 + v3 <= n) /\
  (u2 - u1) * (v3 - v1) - (v2 - v1) * (u3 - u1) = 1.

Lemma grid_good t : In t (grid n) -> good_uv t.
Proof.
  intros H. unfold grid in H. apply in_flat_map in H. destruct H as [s [Hs H]]. apply in_zrange in Hs.
  destruct H as [<-|H]; [cbn; lia|]. apply in_flat_map in H. destruct H as [j [Hj H]]. apply in_zrange in Hj.
  destruct H as [<-|[<-|[]]]; cbn; lia.
Qed.

Lemma ip_in u v : 0 <= u -> 0 <= v -> u + v <= n -> in_triangle a b c (ip (u, v)).
Proof.
  intros Hu Hv Huv. pose proof n_nz as NZ. assert (0 < IZR n)%R as NP by (apply IZR_lt; lia).
  exists (1 - IZR u / IZR n - IZR v / IZR n)%R, (IZR u / IZR n)%R, (IZR v / IZR n)%R.
  assert (0 <= IZR u / IZR n)%R by (apply Rmult_le_pos; [apply IZR_le; lia|apply Rlt_le, Rinv_0_lt_compat, NP]).
  assert (0 <= IZR v / IZR n)%R by (apply Rmult_le_pos; [apply IZR_le; lia|apply Rlt_le, Rinv_0_lt_compat, NP]).
  assert (IZR u / IZR n + IZR v / IZR n <= 1)%R.
  { replace (IZR u / IZR n + IZR v / IZR n)%R with (IZR (u + v) / IZR n)%R by (rewrite plus_IZR; field; exact NZ).
    apply Rmult_le_reg_r with (IZR n); [exact NP|]. unfold Rdiv. rewrite Rmult_assoc, Rinv_l, Rmult_1_r, Rmult_1_l by exact NZ. apply IZR_le. exact Huv. }
  unfold bary, ip. cbn [fst snd]. split; [lra|]. split; [lra|]. split; [lra|].
  split; [ring|]. unfold add3, scal3, sub3. cbn [px py pz]. apply P_eq; ring.
Qed.

Lemma ip_diff u1 v1 u2 v2 : sub3 (ip (u2, v2)) (ip (u1, v1)) =
  add3 (scal3 (IZR (u2 - u1) / IZR n) (sub3 b a)) (scal3 (IZR (v2 - v1) / IZR n) (sub3 c a)).
Proof.
  pose proof n_nz as NZ. unfold ip. cbn [fst snd]. rewrite !minus_IZR. unfold add3, scal3, sub3. cbn [px py pz]. apply P_eq; field; exact NZ.
Qed.

Lemma cross_comb (B C : pt3) x1 y1 x2 y2 :
  cross3 (add3 (scal3 x1 B) (scal3 y1 C)) (add3 (scal3 x2 B) (scal3 y2 C)) = scal3 (x1 * y2 - y1 * x2) (cross3 B C).
Proof. unfold cross3, add3, scal3. cbn [px py pz]. apply P_eq; ring. Qed.

Lemma scal_scal x y p : scal3 x (scal3 y p) = scal3 (x * y) p.
Proof. unfold scal3. cbn [px py pz]. apply P_eq; ring. Qed.

Lemma ip_cross t p q r : good_uv t -> ip3 t = (p, q, r) ->
  scal3 (IZR (n * n)) (cross3 (sub3 q p) (sub3 r p)) = cross3 (sub3 b a) (sub3 c a).
Proof.
  destruct t as [[[u1 v1] [u2 v2]] [u3 v3]]. intros [_ [_ [_ D]]] E. injection E as <- <- <-. apply (f_equal IZR) in D.
  rewrite minus_IZR, !mult_IZR in D. rewrite !ip_diff, cross_comb, scal_scal, mult_IZR. pose proof n_nz as NZ.
  replace (IZR n * IZR n * _)%R with 1%R; [unfold scal3; rewrite !Rmult_1_l; symmetry; apply pt_eta|].
  rewrite <- D. field. exact NZ.
Qed.

Lemma grid_cuts : cuts n (a, b, c) (map ip3 (grid n)).
Proof.
  split; [unfold len; rewrite map_length; apply grid_size; lia|].
  intros p q r H. apply in_map_iff in H. destruct H as [t [E H]]. apply grid_good in H.
  pose proof (ip_cross t p q r H E) as X.
  destruct t as [[[u1 v1] [u2 v2]] [u3 v3]]. injection E as <- <- <-. destruct H as [H1 [H2 [H3 _]]].
  repeat split; try (apply ip_in; lia). exact X.
Qed.
End Tess.

Definition small (n : Z) (f : pt3 * pt3 * pt3) : list (pt3 * pt3 * pt3) :=
  let '(a, b, c) := f in map (ip3 a b c n) (grid n).

Lemma tessellate_ok (m : Mesh R) n mo : wf m -> reach mo -> 1 <= n ->
  exists m', tessellate m n mo = Ok m' /\ soup m' (flat_map (small n) (faces (abs m))).
Proof.
  intros W R Hn. unfold tessellate.
  edestruct (for_inv (fun i m' => soup m' (flat_map (small n) (map (corners (abs m)) (live_lt (firstn (Z.to_nat i) (ktris (mkern m)))))))) as [m' [E S]];
    [| | |exists m'; split; [exact E|]].
  - apply vsize_nonneg.
  - cbn. split; [|repeat split; reflexivity].
    eapply (R_step mo OpClear _ OutUnit R); [intros f [H|H]; discriminate|reflexivity].
  - intros i m1 Hi S1. destruct (vget_in_range (ktris (mkern m)) i Hi) as [t Et].
    rewrite (is_unlinked_ok m i t Et). cbn [bind]. rewrite (firstn_vget _ _ _ Et), live_lt_app, map_app, flat_map_app.
    destruct (lunl t =? -1) eqn:EL.
    + exists m1. split; [reflexivity|]. unfold live_lt at 2. cbn [map abs_tri filter snd]. rewrite EL. cbn. rewrite app_nil_r. exact S1.
    + rewrite (get_triangle_vertices_ok m i t Et). cbn [bind].
      destruct (get_triangle_ok m i t W Et) as [p [q [r [E1 [E2 [E3 _]]]]]].
      rewrite (get_vertex_ok _ _ _ E1), (get_vertex_ok _ _ _ E2), (get_vertex_ok _ _ _ E3). cbn [bind].
      destruct (tessellate_triangle_ok p q r n Hn m1 _ S1) as [m2 [E4 S2]]. exists m2. split; [exact E4|].
      unfold live_lt at 2. cbn [map abs_tri filter snd]. rewrite EL. cbn [negb map fst].
      change (fst (abs_tri t)) with (lv1 t, lv2 t, lv3 t).
      assert (corners (abs m) (lv1 t, lv2 t, lv3 t) = (p, q, r)) as ->.
      { unfold corners, pt. cbn [abs averts]. rewrite (nth_vget _ _ _ O3 E1), (nth_vget _ _ _ O3 E2), (nth_vget _ _ _ O3 E3). reflexivity. }
      cbn [flat_map small]. rewrite app_nil_r. exact S2.
  - change (nb_triangles m) with (vsize (ktris (mkern m))) in S. rewrite firstn_vsize in S. exact S.
Qed.

Lemma cuts_area n f fs : 1 <= n -> cuts n f fs -> sumR (map area_tri fs) = area_tri f.
Proof.
  destruct f as [[a b] c]. intros Hn [L H]. assert (0 < IZR (n * n))%R as NP by (apply IZR_lt; nia).
  rewrite (sumR_scale (area_tri (a, b, c) / IZR (n * n)) area_tri (fun _ => 1%R)).
  - assert (forall l : list (pt3 * pt3 * pt3), sumR (map (fun _ => 1%R) l) = IZR (len l)) as K.
    { induction l as [|x l IH]; [reflexivity|]. cbn [map]. rewrite sumR_cons, IH. unfold len. cbn [length]. rewrite Nat2Z.inj_succ, succ_IZR. ring. }
    rewrite K, L. field. lra.
  - intros [[p q] r] Hx. destruct (H p q r Hx) as [_ [_ [_ X]]]. unfold area_tri, area3. rewrite <- X, len3_scal, Rabs_right by lra. field. lra.
Qed.

Lemma vol_normal a b c : tetra_vol a b c = (dot3 a (cross3 (sub3 b a) (sub3 c a)) / 6)%R.
Proof. unfold tetra_vol, det3, dot3, cross3, sub3. cbn [px py pz]. field. Qed.

Lemma in_triangle_dot a b c p : in_triangle a b c p -> dot3 p (cross3 (sub3 b a) (sub3 c a)) = dot3 a (cross3 (sub3 b a) (sub3 c a)).
Proof.
  intros [x [y [z [_ [_ [_ [S ->]]]]]]]. replace x with (1 - y - z)%R by lra.
  unfold dot3, cross3, sub3, add3, scal3. cbn [px py pz]. ring.
Qed.

Lemma cuts_vol n f fs : 1 <= n -> cuts n f fs -> sumR (map vol_tri fs) = vol_tri f.
Proof.
  destruct f as [[a b] c]. intros Hn [L H]. assert (0 < IZR (n * n))%R as NP by (apply IZR_lt; nia).
  rewrite (sumR_scale (vol_tri (a, b, c) / IZR (n * n)) vol_tri (fun _ => 1%R)).
  - assert (forall l : list (pt3 * pt3 * pt3), sumR (map (fun _ => 1%R) l) = IZR (len l)) as K.
    { induction l as [|x l IH]; [reflexivity|]. cbn [map]. rewrite sumR_cons, IH. unfold len. cbn [length]. rewrite Nat2Z.inj_succ, succ_IZR. ring. }
    rewrite K, L. field. lra.
  - intros [[p q] r] Hx. destruct (H p q r Hx) as [Ip [_ [_ X]]]. unfold vol_tri. rewrite (vol_normal p q r), (vol_normal a b c).
    rewrite <- (in_triangle_dot a b c p Ip), <- X. unfold dot3, scal3. cbn [px py pz]. field. lra.
Qed.

Lemma len_flat_map_cuts n (fs : list (pt3 * pt3 * pt3)) : 0 <= n -> (forall f, In f fs -> len (small n f) = n * n) -> vsize (flat_map (small n) fs) = n * n * vsize fs.
Proof.
  intros Hn. induction fs as [|f fs IH]; intros H; [cbn; lia|]. cbn [flat_map]. rewrite vsize_app, vsize_cons, IH by (intros; apply H; right; assumption).
  change (vsize (small n f)) with (len (small n f)). rewrite H by (left; reflexivity). ring.
Qed.

Lemma tessellate_exact (m mo : Mesh R) a n : reach m -> shows m a -> reach mo -> 1 <= n ->
  exists m' a' cut, tessellate m n mo = Ok m' /\ reach m' /\ shows m' a' /\
    (forall f, cuts n f (cut f)) /\
    faces a' = flat_map cut (faces a) /\ averts a' = flat_map (fun f => let '(p, q, r) := f in [p; q; r]) (faces a') /\
    nb_triangles m' = n * n * len (live a) /\ nb_vertices m' = 3 * n * n * len (live a) /\
    surface m' = surface m /\ volume m' = volume m.
Proof.
  intros R S Ro Hn. pose proof (reach_surface m a R S) as SA. pose proof (reach_volume m a R S) as VA.
  rewrite (shows_unique m a (abs m) S (shows_abs m)) in *. pose proof (reach_wf m R) as W.
  destruct (tessellate_ok m n mo W Ro Hn) as [m' [E [R' [F [NV [NT AV]]]]]].
  assert (forall f, cuts n f (small n f)) as CU by (intros [[p q] r]; apply grid_cuts; exact Hn).
  assert (vsize (faces (abs m)) = len (live (abs m))) as LF by (unfold faces; apply vsize_map).
  rewrite len_flat_map_cuts in NV, NT; try lia; try (intros [[p q] r] _; apply (CU (p, q, r))).
  exists m', (abs m'), (small n). split; [exact E|]. split; [exact R'|]. split; [apply shows_abs|]. split; [exact CU|]. split; [exact F|]. split; [rewrite F; exact AV|].
  split; [rewrite NT, LF; reflexivity|]. split; [rewrite NV, LF; ring|].
  rewrite SA, VA, (reach_surface m' _ R' (shows_abs m')), (reach_volume m' _ R' (shows_abs m')).
  unfold total_area, total_vol. rewrite F, !sumR_flat_map. split; f_equal; apply sumR_ext; intros f _.
  - apply (cuts_area n); [exact Hn|apply CU].
  - apply (cuts_vol n); [exact Hn|apply CU].
Qed.

Lemma tessellate_nonpos (m mo : Mesh R) n : reach m -> n <= 0 -> tessellate m n mo = Ok (clear mo).
Proof.
  intros R Hn. pose proof (reach_wf m R) as W. unfold tessellate.
  edestruct (for_inv (fun i m' => m' = clear mo)) as [m' [E S]]; [| | |rewrite E, S; reflexivity].
  - apply vsize_nonneg.
  - reflexivity.
  - intros i m1 Hi ->. destruct (vget_in_range (ktris (mkern m)) i Hi) as [t Et].
    rewrite (is_unlinked_ok m i t Et). cbn [bind]. destruct (lunl t =? -1); [eexists; split; reflexivity|].
    rewrite (get_triangle_vertices_ok m i t Et). cbn [bind].
    destruct (get_triangle_ok m i t W Et) as [p [q [r [E1 [E2 [E3 _]]]]]].
    rewrite (get_vertex_ok _ _ _ E1), (get_vertex_ok _ _ _ E2), (get_vertex_ok _ _ _ E3). cbn [bind].
    unfold tessellate_triangle. rewrite for_empty by exact Hn. eexists; split; reflexivity.
Qed.
