(** Patches over the reals: positions of the added vertices, area covered; smooth meshes and their factory. *)
From Coq Require Import ZArith List Bool Reals Lra Lia Psatz.
From Verif Require Import Base Num MGeometry MKernel MMesh MMeshRun MMeasure MUtil MMeshFactory MBezier SMesh SReach SGeom SMeasure SMeshFac SNurbs SBezier
  LBase LReach LMeasure LMeasure2 LMeshFac LMeshFac2 LMeshFac4 LBezier LBezier2.
Import ListNotations.
Open Scope R_scope.

Definition gpos (n i : Z) : R := IZR i / IZR n.
Definition patch_at (q : QBT R) (n i j : Z) : pt3 := mean (masses q (gpos n i) (gpos n j) (1 - gpos n i - gpos n j)).
Lemma gpos_range n i j : (1 <= n)%Z -> on_grid n i j -> 0 <= gpos n i /\ 0 <= gpos n j /\ gpos n i + gpos n j <= 1.
Proof.
  intros Hn (A & B & C). unfold gpos. assert (0 < IZR n) as P by (apply IZR_lt; lia). apply IZR_le in A. apply IZR_le in B. apply IZR_le in C. rewrite plus_IZR in C.
  pose proof (Rinv_0_lt_compat _ P) as I. split; [apply Rmult_le_pos; lra|]. split; [apply Rmult_le_pos; lra|].
  apply (Rmult_le_reg_r (IZR n)); [exact P|]. unfold Rdiv. rewrite Rmult_plus_distr_r, !Rmult_assoc, Rinv_l by lra. lra.
Qed.
Lemma neg1 : (- n1)%num = -1. Proof. cbn. ring. Qed.
Lemma evals_R (q : QBT R) n : (1 <= n)%Z -> positive_weights q -> evals q n (patch_at q n).
Proof.
  intros Hn P i j G. destruct (gpos_range n i j Hn G) as (A & B & C). exists (gpos n i), (gpos n j).
  assert (IZR n <> 0) as NZ by (apply not_0_IZR; lia). split; [apply (ndiv_nz (IZR i)); exact NZ|]. split; [apply (ndiv_nz (IZR j)); exact NZ|].
  rewrite neg1. apply eval_default. pose proof (mass_pos q (gpos n i) (gpos n j) (1 - gpos n i - gpos n j) P A B ltac:(lra) ltac:(ring)). lra.
Qed.
Lemma add_zero_segments (q : QBT R) m : qbt_add_to_mesh q m 0 = Err FDivZero.
Proof. unfold qbt_add_to_mesh, for_. cbn. destruct (Req_EM_T 0 0); [reflexivity|contradiction]. Qed.
(** The patch appended to a mesh. *)
Lemma patch_appended (q : QBT R) n (m : Mesh R) a : (1 <= n)%Z -> positive_weights q -> reach m -> shows m a ->
  exists m', qbt_add_to_mesh q m n = Ok m' /\ reach m' /\ shows m' (with_tris (with_verts a (grid n (patch_at q n))) (patch_tris n (nb_vertices m))).
Proof.
  intros Hn P R S. destruct (add_to_mesh_ok q n (patch_at q n) m a Hn (evals_R q n Hn P) (conj R S)) as [m' [E [R' S']]].
  exists m'. rewrite gridz_grid in S'. repeat split; assumption || apply S'.
Qed.
Lemma patch_full (q : QBT R) n (m : Mesh R) a : (1 <= n)%Z -> positive_weights q -> reach m -> shows m a ->
  exists m' ts, qbt_add_to_mesh q m n = Ok m' /\ reach m' /\
    shows m' (with_tris (with_verts a (grid n (fun i j => mean (masses q (IZR i / IZR n) (IZR j / IZR n) (1 - IZR i / IZR n - IZR j / IZR n))))) ts) /\
    len ts = patch_count n /\
    forall t, In t ts -> exists i1 j1 i2 j2 i3 j3, on_grid n i1 j1 /\ on_grid n i2 j2 /\ on_grid n i3 j3 /\
      t = (nb_vertices m + rank n i1 j1, nb_vertices m + rank n i2 j2, nb_vertices m + rank n i3 j3)%Z /\
      ((i2 - i1) * (j3 - j1) - (i3 - i1) * (j2 - j1) = -1)%Z.
Proof.
  intros Hn P R S. destruct (patch_appended q n m a Hn P R S) as [m' [E [R' S']]]. exists m', (patch_tris n (nb_vertices m)).
  split; [exact E|]. split; [exact R'|]. split; [exact S'|]. split; [apply patch_tris_len; exact Hn|]. intros t Ht.
  destruct (patch_tris_cells n _ t Ht) as (i1 & j1 & i2 & j2 & i3 & j3 & G1 & G2 & G3 & Et & D & _). exists i1, j1, i2, j2, i3, j3. tauto.
Qed.
Lemma grid_point n i j (g : Z -> Z -> pt3) : on_grid n i j -> nth (Z.to_nat (rank n i j)) (grid n g) O3 = g i j.
Proof. intros G. rewrite <- gridz_grid. apply grid_nth. exact G. Qed.
Lemma grid_size n (g : Z -> Z -> pt3) : (0 <= n)%Z -> (len (grid n g) = (n + 1) * (n + 2) / 2)%Z.
Proof. intros. rewrite <- gridz_grid, grid_len by lia. unfold rank. rewrite Z.add_0_r. f_equal. lia. Qed.

(** Area of a flat patch. *)
Lemma flat_at P1 P2 P3 n i j : (1 <= n)%Z -> patch_at (qbt_set_points qbt_new P1 P2 P3) n i j = bary_map P1 P2 P3 (gpos n i) (gpos n j) (1 - gpos n i - gpos n j).
Proof.
  intros Hn. destruct (eval_flat_new P1 P2 P3 (gpos n i) (gpos n j) (1 - gpos n i - gpos n j) ltac:(ring)) as [_ E].
  rewrite eval_default in E; [unfold patch_at; congruence|]. unm. cbn. replace (_ + _) with 1 by ring. lra.
Qed.
Lemma flat_positive P1 P2 P3 : positive_weights (qbt_set_points qbt_new P1 P2 P3).
Proof. unfold positive_weights. cbn. repeat constructor; lra. Qed.
Lemma len3_scal k v : len3 (scal3 k v) = Rabs k * len3 v.
Proof.
  unfold len3. replace (dot3 (scal3 k v) (scal3 k v)) with (Rsqr k * dot3 v v) by (unfold dot3, Rsqr; cbn; ring).
  rewrite sqrt_mult by (unfold dot3, Rsqr; nra). rewrite sqrt_Rsqr_abs. reflexivity.
Qed.
Lemma cell_area P1 P2 P3 s1 u1 s2 u2 s3 u3 : area3 (bary_map P1 P2 P3 s1 u1 (1 - s1 - u1)) (bary_map P1 P2 P3 s2 u2 (1 - s2 - u2)) (bary_map P1 P2 P3 s3 u3 (1 - s3 - u3)) =
  Rabs ((s2 - s1) * (u3 - u1) - (s3 - s1) * (u2 - u1)) * area3 P1 P2 P3.
Proof.
  unfold area3. rewrite <- Rmult_div_assoc_l || idtac.
  match goal with |- len3 ?x / 2 = _ => assert (x = scal3 ((s2 - s1) * (u3 - u1) - (s3 - s1) * (u2 - u1)) (cross3 (sub3 P2 P1) (sub3 P3 P1))) as -> by (unfold cross3, sub3, bary_map; pteq; cbn; ring) end.
  rewrite len3_scal. field.
Qed.
Lemma sumR_const {A} (f : A -> R) l k : (forall x, In x l -> f x = k) -> sumR (map f l) = IZR (len l) * k.
Proof.
  induction l as [|x l IH]; intros H; [cbn; ring|]. cbn [map sumR fold_right]. fold (sumR (map f l)). rewrite IH by (intros; apply H; right; assumption).
  rewrite (H x) by (left; reflexivity). rewrite len_cons, plus_IZR. ring.
Qed.
Lemma corners_new (a : AMesh R) n g b i j ts : on_grid n i j -> b = len (averts a) ->
  pt (with_tris (with_verts a (grid n g)) ts) (b + rank n i j) O3 = g i j.
Proof.
  intros G ->. unfold pt, with_tris, with_verts. cbn [averts]. pose proof (rank_range n i j G). unfold len. rewrite app_nth2 by lia.
  replace (Z.to_nat (Z.of_nat (length (averts a)) + rank n i j) - length (averts a))%nat with (Z.to_nat (rank n i j)) by lia. apply grid_point. exact G.
Qed.
Lemma flat_area P1 P2 P3 n (m : Mesh R) a : (1 <= n)%Z -> reach m -> shows m a ->
  exists m', qbt_add_to_mesh (qbt_set_points qbt_new P1 P2 P3) m n = Ok m' /\
    surface m' = Ok (total_area a + IZR (patch_count n) / (IZR n * IZR n) * area3 P1 P2 P3).
Proof.
  intros Hn R S. set (q := qbt_set_points qbt_new P1 P2 P3). destruct (patch_appended q n m a Hn (flat_positive P1 P2 P3) R S) as [m' [E [R' S']]].
  exists m'. split; [exact E|]. rewrite (reach_surface _ _ R' S'). f_equal. unfold total_area.
  rewrite added by (apply (reach_closed m); assumption). f_equal. rewrite map_map. rewrite (sumR_const _ _ (/ (IZR n * IZR n) * area3 P1 P2 P3)).
  { rewrite patch_tris_len by exact Hn. unfold Rdiv. ring. }
  assert (nb_vertices m = len (averts a)) as Eb by (destruct S as [Q _]; exact Q). rewrite Eb. intros t Ht.
  destruct (patch_tris_cells n _ t Ht) as (i1 & j1 & i2 & j2 & i3 & j3 & G1 & G2 & G3 & -> & D & _). cbn [corners area_tri].
  change (with_verts a (grid n (patch_at q n))) with (with_verts a (grid n (patch_at q n))).
  assert (forall i j, on_grid n i j -> pt (with_verts a (grid n (patch_at q n))) (len (averts a) + rank n i j) O3 = patch_at q n i j) as K.
  { intros i j G. pose proof (corners_new a n (patch_at q n) _ i j [] G eq_refl) as Q. rewrite wt_nil in Q. exact Q. }
  rewrite !K by assumption. subst q. rewrite !flat_at by exact Hn. rewrite cell_area. f_equal.
  assert (IZR n <> 0) as NZ by (apply not_0_IZR; lia). unfold gpos.
  replace ((IZR i2 / IZR n - IZR i1 / IZR n) * (IZR j3 / IZR n - IZR j1 / IZR n) - (IZR i3 / IZR n - IZR i1 / IZR n) * (IZR j2 / IZR n - IZR j1 / IZR n))
    with (IZR ((i2 - i1) * (j3 - j1) - (i3 - i1) * (j2 - j1)) * / (IZR n * IZR n)) by (rewrite minus_IZR, !mult_IZR, !minus_IZR; field; exact NZ).
  rewrite D, Rabs_mult, (Rabs_pos_eq (/ _)). { replace (Rabs (-1)) with 1; [ring|]. rewrite Rabs_left; lra. }
  left. apply Rinv_0_lt_compat. nra.
Qed.
