(** Lemmas about MeshMeasurements over the reals. *)
From Coq Require Import ZArith List Bool Reals Lra Lia Psatz Permutation.
From Verif Require Import Base Num MGeometry MKernel MMesh MMeshRun MMeasure MTransform SMesh SReach SGeom SMeasure
  LBase LMesh LReach LGeom LGeom2 LTransform.
Import ListNotations.
Open Scope R_scope.

(** ** Sums *)
Lemma sumR_app u v : sumR (u ++ v) = sumR u + sumR v.
Proof. unfold sumR. induction u; cbn; [ring|]. rewrite IHu. ring. Qed.
Lemma sumR_nonneg l : (forall x, In x l -> 0 <= x) -> 0 <= sumR l.
Proof.
  induction l as [|a l IH]; intros H; [apply Rle_refl|]. change (sumR (a :: l)) with (a + sumR l).
  apply Rplus_le_le_0_compat; [apply H; left; reflexivity|]. apply IH. intros x Hx. apply H. right. exact Hx.
Qed.
Lemma sumR_perm u v : Permutation u v -> sumR u = sumR v.
Proof. induction 1; unfold sumR in *; cbn; try reflexivity; try (rewrite IHPermutation; reflexivity); try ring. congruence. Qed.
Lemma sumR_cons x l : sumR (x :: l) = x + sumR l.
Proof. reflexivity. Qed.
Lemma sumR_nil : sumR [] = 0.
Proof. reflexivity. Qed.
Lemma sumR_scale {A} k (f g : A -> R) l : (forall x, In x l -> f x = k * g x) -> sumR (map f l) = k * sumR (map g l).
Proof.
  induction l as [|a l IH]; intros H; cbn [map]; [rewrite sumR_nil; ring|].
  rewrite !sumR_cons, IH by (intros; apply H; right; assumption). rewrite (H a) by (left; reflexivity). ring.
Qed.
Lemma sumR_ext {A} (f g : A -> R) l : (forall x, In x l -> f x = g x) -> sumR (map f l) = sumR (map g l).
Proof. intros H. f_equal. apply map_ext_in. exact H. Qed.
Lemma sumR_flat_map {A B} (f : A -> list B) (g : B -> R) l : sumR (map g (flat_map f l)) = sumR (map (fun x => sumR (map g (f x))) l).
Proof. induction l as [|a l IH]; cbn [flat_map map]; [reflexivity|]. rewrite map_app, sumR_app, sumR_cons, IH. reflexivity. Qed.
Lemma sumR_plus {A} (f g : A -> R) l : sumR (map (fun x => f x + g x) l) = sumR (map f l) + sumR (map g l).
Proof. induction l as [|a l IH]; cbn [map]; [rewrite sumR_nil; ring|]. rewrite !sumR_cons, IH. ring. Qed.

(** ** Faces *)
Lemma nth_vget {A} (l : list A) i x d : vget l i = Ok x -> nth (Z.to_nat i) l d = x.
Proof. intros E. apply vget_Ok in E. destruct E as [_ E]. apply nth_error_nth. exact E. Qed.

Definition tri3 (f : pt3 * pt3 * pt3) : Triangle3 R := let '(p, q, r) := f in mkTri p q r.

Lemma get_triangle_corners (m : Mesh R) i t : wf m -> vget (ktris (mkern m)) i = Ok t ->
  get_triangle m i = Ok (tri3 (corners (abs m) (lv1 t, lv2 t, lv3 t))).
Proof.
  intros W E. destruct (get_triangle_ok m i t W E) as [p [q [r [E1 [E2 [E3 ->]]]]]].
  unfold corners, pt, tri3. cbn [averts abs].
  rewrite (nth_vget _ _ _ O3 E1), (nth_vget _ _ _ O3 E2), (nth_vget _ _ _ O3 E3). reflexivity.
Qed.

Lemma sum_triangles_ok (m : Mesh R) f g : wf m -> (forall t, f (tri3 t) = Ok (g t)) ->
  sum_triangles m f = Ok (sumR (map g (faces (abs m)))).
Proof.
  intros W HF. unfold sum_triangles.
  edestruct (for_inv (fun i s => s = sumR (map g (map (corners (abs m)) (live_lt (firstn (Z.to_nat i) (ktris (mkern m))))))))
    as [s [E H]]; [| | |rewrite E, H].
  - unfold nb_triangles. apply vsize_nonneg.
  - reflexivity.
  - intros i s Hi ->. destruct (wf_tri_get m i W Hi) as [t [E Wt]].
    rewrite (is_unlinked_ok _ _ _ E). cbn [bind].
    rewrite (firstn_vget _ _ _ E), live_lt_app, !map_app, sumR_app.
    destruct (lunl t =? -1)%Z eqn:U.
    + eexists. split; [reflexivity|]. unfold live_lt at 3. cbn. rewrite U. cbn. ring.
    + rewrite (get_triangle_corners m i t W E). cbn [bind]. rewrite HF. cbn [bind]. eexists. split; [reflexivity|].
      unfold live_lt at 3. cbn [map filter abs_tri snd]. rewrite U. cbn [negb map fst sumR fold_right nadd RNum].
      change (fst (abs_tri t)) with (lv1 t, lv2 t, lv3 t). ring.
  - unfold nb_triangles, k_nbt. rewrite firstn_vsize. reflexivity.
Qed.

Lemma tri_surface_R f : tri_surface (tri3 f) = Ok (area_tri f).
Proof.
  destruct f as [[p q] r]. unfold tri_surface, tri3. 
  change (orthogonal (mkTri p q r)) with (cross3 (sub3 p q) (sub3 p r)). rewrite norm_R. cbn [bind].
  cbn [area_tri]. unfold area3. rewrite collinear_cross. cbn. f_equal. lra.
Qed.

Lemma dot_orthogonal f : dot (t1 (tri3 f)) (orthogonal (tri3 f)) = 6 * vol_tri f.
Proof.
  destruct f as [[[a b c] [d e f]] [g h i]]. unfold tri3, orthogonal, vol_tri, tetra_vol, det3, dot, cross, psub, dot3, cross3.
  cbn [t1 t2 t3 px py pz nadd nsub nmul RNum]. field.
Qed.

Lemma surface_ok (m : Mesh R) : wf m -> surface m = Ok (total_area (abs m)).
Proof. intros W. unfold surface, total_area. apply sum_triangles_ok; [exact W|]. apply tri_surface_R. Qed.

Lemma volume_ok (m : Mesh R) : wf m -> volume m = Ok (total_vol (abs m)).
Proof.
  intros W. unfold volume, total_vol.
  rewrite (sum_triangles_ok m _ (fun f => 6 * vol_tri f) W).
  - cbn [bind]. rewrite (sumR_scale 6 (fun f => 6 * vol_tri f) vol_tri) by (intros; ring).
    rewrite ndiv_R by (cbn; lra). f_equal. cbn. field.
  - intros t. rewrite dot_orthogonal. reflexivity.
Qed.

Lemma reach_surface m a : reach m -> shows m a -> surface m = Ok (total_area a).
Proof. intros R S. rewrite (shows_unique m a (abs m) S (shows_abs m)). apply surface_ok, reach_wf, R. Qed.
Lemma reach_volume m a : reach m -> shows m a -> volume m = Ok (total_vol a).
Proof. intros R S. rewrite (shows_unique m a (abs m) S (shows_abs m)). apply volume_ok, reach_wf, R. Qed.

Lemma reach_closed (m : Mesh R) a : reach m -> shows m a -> closed_indices a.
Proof.
  intros R S. rewrite (shows_unique m a (abs m) S (shows_abs m)). intros x y z b H.
  rewrite abs_nbv. pose proof (reach_wf m R) as W. cbn in H. apply in_map_iff in H. destruct H as [t [E H]].
  eapply Forall_forall in W; [|exact H]. injection E as <- <- <- <-. apply W.
Qed.

Lemma area3_nonneg p q r : 0 <= area3 p q r.
Proof. unfold area3. pose proof (len3_nonneg (cross3 (sub3 q p) (sub3 r p))). lra. Qed.
Lemma total_area_nonneg a : 0 <= total_area a.
Proof. apply sumR_nonneg. intros x H. apply in_map_iff in H. destruct H as [[[p q] r] [<- _]]. apply area3_nonneg. Qed.

Lemma live_live (a : AMesh R) t : In t (live a) -> exists b, In (t, b) (atris a).
Proof. unfold live. intros H. apply in_map_iff in H. destruct H as [[u b] [<- H]]. apply filter_In in H. exists b. apply H. Qed.

Lemma live_app {T} vs ts us c : live (mkA (T:=T) vs (ts ++ us) c) = live (mkA vs ts c) ++ live (mkA vs us c).
Proof. unfold live. cbn. rewrite filter_app, map_app. reflexivity. Qed.
Lemma live_new {T} vs ts c : live (mkA (T:=T) vs (map (fun t => (t, true)) ts) c) = ts.
Proof. unfold live. cbn. induction ts; cbn; [reflexivity|]. congruence. Qed.

Lemma corners_ext a b t : closed_indices a -> (exists l, In (t, l) (atris a)) -> firstn (length (averts a)) (averts b) = averts a ->
  corners b t = corners a t.
Proof.
  intros C [l H] F. destruct t as [[x y] z]. destruct (C _ _ _ _ H) as [H1 [H2 H3]]. unfold len in *. unfold corners, pt.
  assert (forall i, (0 <= i < Z.of_nat (length (averts a)))%Z -> nth (Z.to_nat i) (averts b) O3 = nth (Z.to_nat i) (averts a) O3) as K.
  { intros i Hi. rewrite <- F. rewrite <- (firstn_skipn (length (averts a)) (averts b)) at 1.
    rewrite app_nth1; [reflexivity|]. rewrite F. lia. }
  rewrite !K by assumption. reflexivity.
Qed.

Lemma add_mesh_area a b : closed_indices a -> closed_indices b ->
  let c := mkA (averts a ++ averts b) (atris a ++ map (fun t => (shift_triple (len (averts a)) t, true)) (live b)) (acolor b) in
  total_area c = total_area a + total_area b /\ total_vol c = total_vol a + total_vol b.
Proof.
  intros Ca Cb c.
  assert (faces c = faces a ++ faces b) as HF.
  { unfold faces. unfold c at 2. rewrite live_app, map_app. f_equal.
    - change (live (mkA (averts a ++ averts b) (atris a) (acolor b))) with (live a). apply map_ext_in. intros t Ht.
      apply (corners_ext a c t Ca (live_live a t Ht)). cbn. rewrite firstn_app, Nat.sub_diag, firstn_all. apply app_nil_r.
    - rewrite <- (map_map (shift_triple (len (averts a))) (fun t => (t, true))), live_new, map_map. apply map_ext_in.
      intros [[x y] z] Ht. destruct (live_live b _ Ht) as [l Hl]. destruct (Cb _ _ _ _ Hl) as [H1 [H2 H3]].
      unfold corners, shift_triple, pt, c. cbn [averts]. unfold len in *.
      assert (forall i, (0 <= i < Z.of_nat (length (averts b)))%Z ->
        nth (Z.to_nat (i + Z.of_nat (length (averts a)))) (averts a ++ averts b) O3 = nth (Z.to_nat i) (averts b) O3) as K.
      { intros i Hi. rewrite app_nth2 by lia. f_equal. lia. }
      rewrite !K by assumption. reflexivity. }
  unfold total_area, total_vol. rewrite HF, !map_app, !sumR_app. auto.
Qed.

(** ** Transformations *)
Definition map3 (f : pt3 -> pt3) (t : pt3 * pt3 * pt3) : pt3 * pt3 * pt3 := let '(p, q, r) := t in (f p, f q, f r).

Lemma faces_transform a f : closed_indices a ->
  faces (mkA (map f (averts a)) (atris a) (acolor a)) = map (map3 f) (faces a).
Proof.
  intros C. unfold faces. change (live (mkA (map f (averts a)) (atris a) (acolor a))) with (live a).
  rewrite map_map. apply map_ext_in. intros [[x y] z] Ht. destruct (live_live a _ Ht) as [l Hl].
  destruct (C _ _ _ _ Hl) as [H1 [H2 H3]]. unfold corners, pt, map3. cbn [averts]. unfold len in *.
  assert (forall i, (0 <= i < Z.of_nat (length (averts a)))%Z -> nth (Z.to_nat i) (map f (averts a)) O3 = f (nth (Z.to_nat i) (averts a) O3)) as K.
  { intros i Hi. rewrite (nth_indep _ O3 (f O3)) by (rewrite map_length; lia). apply map_nth. }
  rewrite !K by assumption. reflexivity.
Qed.

Lemma transform_measures f kv ks : forall a,
  closed_indices a ->
  (forall p q r, tetra_vol (f p) (f q) (f r) = kv * tetra_vol p q r) ->
  (forall p q r, area3 (f p) (f q) (f r) = ks * area3 p q r) ->
  total_vol (mkA (map f (averts a)) (atris a) (acolor a)) = kv * total_vol a /\
  total_area (mkA (map f (averts a)) (atris a) (acolor a)) = ks * total_area a.
Proof.
  intros a C HV HS. unfold total_vol, total_area. rewrite faces_transform by exact C. rewrite !map_map. split; apply sumR_scale.
  - intros [[p q] r] _. apply HV.
  - intros [[p q] r] _. apply HS.
Qed.

Lemma area_isometry f p q r : isometry f -> area3 (f p) (f q) (f r) = area3 p q r.
Proof.
  intros I. unfold area3, len3. rewrite !lagrange.
  assert (forall x y, dot3 (sub3 (f x) (f y)) (sub3 (f x) (f y)) = dot3 (sub3 x y) (sub3 x y)) as D.
  { intros x y. rewrite <- !len3_sq. unfold isometry, dist3 in I. rewrite I. reflexivity. }
  assert (forall x y z, dot3 (sub3 x y) (sub3 z y) = (dot3 (sub3 x y) (sub3 x y) + dot3 (sub3 z y) (sub3 z y) - dot3 (sub3 x z) (sub3 x z)) / 2) as PI.
  { intros. unfold dot3, sub3. cbn [px py pz]. field. }
  rewrite (PI (f q) (f p) (f r)), (PI q p r), !D. reflexivity.
Qed.

(** Translation of a closed surface *)
Definition tr (v p : pt3) : pt3 := add3 p v.

Lemma vol_translate v p q r : tetra_vol (tr v p) (tr v q) (tr v r) =
  tetra_vol p q r + (det3 v p q + det3 v q r + det3 v r p) / 6.
Proof. unfold tetra_vol, det3, dot3, cross3, tr, add3. cbn [px py pz]. field. Qed.

Definition edge_term (v : pt3) (f : pt3 * pt3 * pt3) : R := let '(p, q, r) := f in det3 v p q + det3 v q r + det3 v r p.

Lemma edge_sum v fs : sumR (map (fun f => let '(p, q, r) := f in det3 v p q + det3 v q r + det3 v r p) fs) =
  sumR (map (fun e => det3 v (fst e) (snd e)) (flat_map edges3 fs)).
Proof.
  rewrite sumR_flat_map. apply sumR_ext. intros [[p q] r] _. cbn. ring.
Qed.

Lemma closed_edge_sum v fs : closed_surface fs -> sumR (map (fun e => det3 v (fst e) (snd e)) (flat_map edges3 fs)) = 0.
Proof.
  unfold closed_surface. generalize (flat_map edges3 fs) as E. intros E H.
  set (g := fun e : pt3 * pt3 => det3 v (fst e) (snd e)).
  assert (sumR (map g E) = (-1) * sumR (map g E)) as K; [|lra].
  rewrite (sumR_perm (map g E) (map g (map swap E))) at 1 by (apply Permutation_map; exact H). rewrite map_map. apply sumR_scale.
  intros [p q] _. unfold g, swap, det3, dot3, cross3. cbn [px py pz fst snd]. ring.
Qed.

Lemma volume_translation v a : closed_indices a -> closed_surface (faces a) ->
  total_vol (mkA (map (tr v) (averts a)) (atris a) (acolor a)) = total_vol a.
Proof.
  intros C H. unfold total_vol. rewrite faces_transform by exact C. rewrite map_map.
  rewrite (sumR_ext _ (fun f => vol_tri f + 1 / 6 * edge_term v f)).
  - rewrite sumR_plus. rewrite (sumR_scale (1/6) (fun f => 1 / 6 * edge_term v f) (edge_term v)) by reflexivity.
    unfold edge_term at 1. rewrite edge_sum, closed_edge_sum by exact H. ring.
  - intros [[p q] r] _. cbn [map3 vol_tri edge_term]. rewrite vol_translate. field.
Qed.

Lemma swap_inj (x y : Z * Z) : swap x = swap y -> x = y.
Proof. destruct x, y. unfold swap. cbn. congruence. Qed.

Lemma count_swap (l : list (Z * Z)) i j : count_occ zz_dec (map swap l) (i, j) = count_occ zz_dec l (j, i).
Proof.
  induction l as [|[x y] l IH]; cbn [map]; [reflexivity|]. cbn [swap fst snd].
  destruct (zz_dec (y, x) (i, j)) as [E|E], (zz_dec (x, y) (j, i)) as [F|F].
  - rewrite !count_occ_cons_eq by assumption. congruence.
  - exfalso. congruence.
  - exfalso. congruence.
  - rewrite !count_occ_cons_neq by assumption. exact IH.
Qed.

Lemma index_closed_perm ts : index_closed ts <-> Permutation (flat_map edges3 ts) (map swap (flat_map edges3 ts)).
Proof.
  unfold index_closed. rewrite (Permutation_count_occ zz_dec). split.
  - intros H [i j]. rewrite count_swap. apply H.
  - intros H i j. rewrite (H (i, j)), count_swap. reflexivity.
Qed.

Lemma flat_map_corners a ts : flat_map edges3 (map (corners a) ts) =
  map (fun e => (pt a (fst e) O3, pt a (snd e) O3)) (flat_map edges3 ts).
Proof.
  induction ts as [|[[x y] z] ts IH]; [reflexivity|]. cbn [map flat_map]. rewrite IH, map_app. reflexivity.
Qed.

Lemma index_closed_surface a : index_closed (live a) -> closed_surface (faces a).
Proof.
  intros H. apply index_closed_perm in H. unfold closed_surface, faces. rewrite flat_map_corners.
  set (g := fun e : Z * Z => (pt a (fst e) O3, pt a (snd e) O3)).
  eapply Permutation_trans; [apply (Permutation_map g), H|]. rewrite !map_map.
  apply Permutation_refl'. apply map_ext. intros [x y]. reflexivity.
Qed.

(** ** is_closed / has_no_degenerated / is_clean *)

Lemma all_triangles_ok (m : Mesh R) f (g : TriLT -> bool) : wf m ->
  (forall i t, vget (ktris (mkern m)) i = Ok t -> f i = Ok (g t)) ->
  all_triangles m f = Ok (forallb g (filter (fun t => negb (lunl t =? -1)%Z) (ktris (mkern m)))).
Proof.
  intros W HF. unfold all_triangles.
  edestruct (for_inv (fun i s => s = forallb g (filter (fun t => negb (lunl t =? -1)%Z) (firstn (Z.to_nat i) (ktris (mkern m)))))) as [s [E H]]; [| | |rewrite E, H].
  - unfold nb_triangles. apply vsize_nonneg.
  - reflexivity.
  - intros i s Hi ->. destruct (wf_tri_get m i W Hi) as [t [E Wt]].
    rewrite (firstn_vget _ _ _ E), filter_app, forallb_app.
    destruct (forallb g _) eqn:B; cbn [negb andb].
    + rewrite (is_unlinked_ok _ _ _ E). cbn [bind filter]. destruct (lunl t =? -1)%Z; cbn [negb forallb].
      * eexists; split; reflexivity.
      * rewrite (HF i t E). eexists; split; [reflexivity|]. rewrite andb_true_r. reflexivity.
    + eexists; split; reflexivity.
  - unfold nb_triangles, k_nbt. rewrite firstn_vsize. reflexivity.
Qed.

Lemma live_lt_map ts : live_lt ts = map (fun t => (lv1 t, lv2 t, lv3 t)) (filter (fun t => negb (lunl t =? -1)%Z) ts).
Proof.
  unfold live_lt. induction ts as [|t ts IH]; [reflexivity|]. cbn [map filter abs_tri snd]. destruct (lunl t =? -1)%Z; cbn [negb map fst]; rewrite IH; reflexivity.
Qed.

Lemma is_closed_ok (m : Mesh R) : wf m -> is_closed m = Ok (match live (abs m) with [] => true | _ => false end).
Proof.
  intros W. unfold is_closed. rewrite (all_triangles_ok m _ (fun _ => false) W).
  - rewrite live_abs, live_lt_map. destruct (filter _ _) as [|t ts]; reflexivity.
  - intros i t E. unfold get_near_triangles, k_get_near. pose proof (vget_range _ _ _ E).
    rewrite !bind_massert_true by (apply in_range_true; assumption). rewrite E. cbn [bind].
    pose proof (wf_get _ _ _ W E) as WT. destruct WT as [_ [[-> [-> ->]] _]]. reflexivity.
Qed.

Lemma area3_zero p q r : area3 p q r = 0 <-> collinear p q r.
Proof. unfold area3, collinear. rewrite <- len3_zero. split; intros; lra. Qed.

Lemma no_degenerated_ok (m : Mesh R) : wf m ->
  exists b, has_no_degenerated_triangles m = Ok b /\
   (b = true <-> forall p q r, In (p, q, r) (faces (abs m)) -> ~ collinear p q r).
Proof.
  intros W. unfold has_no_degenerated_triangles.
  rewrite (all_triangles_ok m _ (fun t => negb (Reqb (area_tri (corners (abs m) (lv1 t, lv2 t, lv3 t))) 0)) W).
  - eexists. split; [reflexivity|]. rewrite forallb_forall. unfold faces. rewrite live_abs, live_lt_map. split.
    + intros H p q r Hi. apply in_map_iff in Hi. destruct Hi as [t [E Hi]]. apply in_map_iff in Hi. destruct Hi as [u [<- Hi]].
      specialize (H u Hi). rewrite E in H. cbn [area_tri] in H. rewrite <- area3_zero. apply Reqb_neq. destruct (Reqb _ _); [discriminate|reflexivity].
    + intros H u Hu. destruct (corners (abs m) (lv1 u, lv2 u, lv3 u)) as [[p q] r] eqn:E.
      cbn [area_tri]. apply negb_true_iff, Reqb_neq. rewrite area3_zero. apply H.
      apply in_map_iff. exists (lv1 u, lv2 u, lv3 u). split; [exact E|]. apply in_map_iff. exists u. auto.
  - intros i t E. rewrite (get_triangle_corners m i t W E). cbn [bind]. rewrite tri_surface_R. reflexivity.
Qed.

(** Closedness by id can be checked by computation. *)
Definition closedb (ts : list triple) : bool :=
  let es := flat_map edges3 ts in forallb (fun e => count_occ zz_dec es e =? count_occ zz_dec es (swap e))%nat es.
Lemma closedb_ok ts : closedb ts = true -> index_closed ts.
Proof.
  unfold closedb, index_closed. intros H i j. rewrite forallb_forall in H.
  destruct (in_dec zz_dec (i, j) (flat_map edges3 ts)) as [I|I].
  - apply Nat.eqb_eq. exact (H (i, j) I).
  - destruct (in_dec zz_dec (j, i) (flat_map edges3 ts)) as [J|J].
    + symmetry. apply Nat.eqb_eq. exact (H (j, i) J).
    + rewrite (proj1 (count_occ_not_In zz_dec _ _) I), (proj1 (count_occ_not_In zz_dec _ _) J). reflexivity.
Qed.
